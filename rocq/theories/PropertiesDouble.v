(** * C83: programs generated with data_type double. *)
From Coq Require Import ZArith List Lia Bool Reals Lra.
From Flocq Require Import Core.
From Verif Require Import Num RealInst Activation PropertiesActivation Rounding FloatFormats Decimal DecimalProofs DoublePrecision.
Import ListNotations.
Open Scope R_scope.

Local Notation r32 := to_binary32.
Local Notation r64 := to_binary64.
Definition u24 : R := / 16777216.
Lemma r32_err x : Rabs (r32 x - x) <= u24 * Rabs x + u24 * u24.
Proof.
  pose proof (@nearest_err 24 (-149) eq_refl x) as N. rewrite unit_half, least_half in N. change (bpow radix2 (- (24))) with u24 in N.
  eapply Rle_trans; [exact N|]. apply Rplus_le_compat_l. change (-149 - 1)%Z with (-150)%Z. apply Rle_trans with (bpow radix2 (-24 + -24)); [apply bpow_le; lia|]. rewrite bpow_plus. apply Rle_refl.
Qed.
Lemma r64_err x : Rabs (r64 x - x) <= u24 * u24 * (Rabs x + 1).
Proof.
  pose proof (@nearest_err 53 (-1074) eq_refl x) as N. rewrite unit_half, least_half in N. change (- (53))%Z with (-53)%Z in N. change (-1074 - 1)%Z with (-1075)%Z in N.
  assert (E : bpow radix2 (-24 + -24) = u24 * u24) by (rewrite bpow_plus; reflexivity).
  assert (A : bpow radix2 (-53) <= u24 * u24) by (rewrite <- E; apply bpow_le; lia).
  assert (B : bpow radix2 (-1075) <= u24 * u24) by (rewrite <- E; apply bpow_le; lia).
  pose proof (Rabs_pos x). eapply Rle_trans; [exact N|]. rewrite Rmult_plus_distr_l, Rmult_1_r. apply Rplus_le_compat; [|exact B]. apply Rmult_le_compat_r; assumption.
Qed.
Lemma exp_gap a b : Rabs (exp a - exp b) <= Rabs (a - b) * exp (Rmax a b).
Proof.
  assert (G : forall p q, q <= p -> exp p - exp q <= (p - q) * exp p).
  { intros p q H. pose proof (exp_ineq1_le (q - p)) as I. assert (E : exp q = exp p * exp (q - p)) by (rewrite <- exp_plus; f_equal; ring). rewrite E. pose proof (exp_pos p). nra. }
  destruct (Rle_dec a b) as [L|L].
  - rewrite Rmax_right, Rabs_minus_sym, (Rabs_minus_sym a b) by lra. assert (exp a <= exp b) by (destruct L as [L| ->]; [left; apply exp_increasing; exact L|right; reflexivity]).
    rewrite !Rabs_pos_eq by lra. apply G. exact L.
  - rewrite Rmax_left by lra. assert (exp b <= exp a) by (left; apply exp_increasing; lra). rewrite !Rabs_pos_eq by lra. apply G. lra.
Qed.
Lemma expf_nonneg x : 0 <= expf x.
Proof. unfold expf. rewrite <- (@nearest_0 24 (-149)). apply (@nearest_mono 24 (-149) eq_refl). left. apply exp_pos. Qed.
(** expf of a negative number of any size, in double: about the precision of float. *)
Lemma expf_err t : t <= 0 -> Rabs (expf t - exp t) <= 4 * u24.
Proof.
  intros Ht. set (s := r32 t). pose proof (r32_err t) as S. fold s in S. rewrite (Rabs_left1 t Ht) in S.
  assert (S0 : s <= 0). { unfold s. rewrite <- (@nearest_0 24 (-149)). apply (@nearest_mono 24 (-149) eq_refl). exact Ht. }
  assert (U : 0 < u24 < / 1000000) by (unfold u24; lra).
  set (g := u24) in *. set (y := - t * (1 - g)).
  assert (Y0 : 0 <= y) by (unfold y; nra).
  assert (MX : Rmax s t <= - y + g * g) by (apply Rabs_le_inv in S; unfold y; apply Rmax_lub; nra).
  assert (EM : exp (Rmax s t) <= exp (- y) * exp (g * g)) by (rewrite <- exp_plus; destruct MX as [MX|MX]; [left; apply exp_increasing; lra|right; f_equal; lra]).
  assert (EG : exp (g * g) <= 1.01).
  { assert (E : exp (g * g) * exp (- (g * g)) = 1) by (rewrite <- exp_plus, Rplus_opp_r; apply exp_0). pose proof (exp_ineq1_le (- (g * g))) as I. pose proof (exp_pos (g * g)) as P.
    assert (GG : g * g <= 0.001) by nra. assert (EM' : 0.999 <= exp (- (g * g))) by lra. apply Rmult_le_compat_l with (r := exp (g * g)) in EM'; lra. }
  assert (YE : y * exp (- y) <= 1).
  { assert (E : exp y * exp (- y) = 1) by (rewrite <- exp_plus, Rplus_opp_r; apply exp_0). pose proof (exp_ineq1_le y). pose proof (exp_pos (- y)). nra. }
  assert (E1 : exp (- y) <= 1) by (rewrite <- exp_0; destruct Y0 as [Y0|<-]; [left; apply exp_increasing; lra|right; f_equal; ring]).
  pose proof (exp_pos (- y)) as EP.
  assert (TE : - t * exp (- y) <= 1.01) by (assert (1 - g >= 0.999) by lra; assert (- t * (1 - g) * exp (- y) <= 1) by exact YE; nra).
  assert (G1 : Rabs (exp s - exp t) <= 1.03 * g + 1.03 * g * g).
  { eapply Rle_trans; [apply exp_gap|]. apply Rle_trans with ((g * - t + g * g) * (exp (- y) * exp (g * g))).
    - apply Rmult_le_compat; [apply Rabs_pos|left; apply exp_pos|exact S|exact EM].
    - assert (X1 : (g * - t + g * g) * exp (- y) <= 1.01 * g + g * g) by nra. assert (X0 : 0 <= (g * - t + g * g) * exp (- y)) by (apply Rmult_le_pos; nra).
      rewrite <- Rmult_assoc. pose proof (exp_pos (g * g)). nra. }
  assert (ES : exp s <= 1) by (rewrite <- exp_0; destruct S0 as [S0| ->]; [left; apply exp_increasing; exact S0|right; reflexivity]).
  pose proof (r32_err (exp s)) as R. fold g in R. rewrite (Rabs_pos_eq (exp s)) in R by (left; apply exp_pos). change (r32 (exp s)) with (expf t) in R.
  replace (expf t - exp t) with ((expf t - exp s) + (exp s - exp t)) by ring. eapply Rle_trans; [apply Rabs_triang|]. pose proof (exp_pos s). nra.
Qed.
Lemma expf_range t : t <= 0 -> 0 <= expf t <= 1.01.
Proof.
  intros Ht. split; [apply expf_nonneg|]. pose proof (expf_err t Ht) as E. apply Rabs_le_inv in E. assert (exp t <= 1) by (rewrite <- exp_0; destruct Ht as [Ht| ->]; [left; apply exp_increasing; exact Ht|right; reflexivity]).
  unfold u24 in E. lra.
Qed.
(** The quotient of two rounded operations. *)
Lemma quotient u a b : 0 <= u <= 1.01 -> Rabs a <= 1.02 -> Rabs (b - a) <= 4 * (u24 * u24) ->
  Rabs (r64 (b / r64 (1 + u)) - a / (1 + u)) <= 16 * (u24 * u24).
Proof.
  intros Hu Ha Hb. set (k := u24 * u24) in *. assert (K : 0 < k < / 1000000) by (unfold k, u24; lra).
  pose proof (r64_err (1 + u)) as W. fold k in W. rewrite (Rabs_pos_eq (1 + u)) in W by lra. set (w := r64 (1 + u)) in *.
  assert (W1 : 1 <= w). { unfold w. apply Rle_trans with (r64 1); [right; symmetry; apply (@nearest_1 53 (-1074) eq_refl ltac:(discriminate))|]. apply (@nearest_mono 53 (-1074) eq_refl). lra. }
  assert (W2 : Rabs (w - (1 + u)) <= 4 * k) by nra.
  assert (Q : Rabs (b / w - a / (1 + u)) <= 9 * k).
  { replace (b / w - a / (1 + u)) with (((b - a) + a * ((1 + u) - w) / (1 + u)) / w) by (field; lra).
    unfold Rdiv at 1. rewrite Rabs_mult, (Rabs_pos_eq (/ w)) by (left; apply Rinv_0_lt_compat; lra).
    assert (IW : / w <= 1) by (rewrite <- Rinv_1; apply Rinv_le_contravar; lra). assert (IW0 : 0 < / w) by (apply Rinv_0_lt_compat; lra).
    assert (IU : / (1 + u) <= 1) by (rewrite <- Rinv_1; apply Rinv_le_contravar; lra). assert (IU0 : 0 < / (1 + u)) by (apply Rinv_0_lt_compat; lra).
    assert (N : Rabs (b - a + a * (1 + u - w) / (1 + u)) <= 9 * k).
    { eapply Rle_trans; [apply Rabs_triang|]. assert (X : Rabs (a * (1 + u - w) / (1 + u)) <= 1.02 * (4 * k)).
      { unfold Rdiv. rewrite !Rabs_mult, (Rabs_pos_eq (/ (1 + u))) by lra. rewrite (Rabs_minus_sym (1 + u) w).
        apply Rle_trans with (Rabs a * Rabs (w - (1 + u)) * 1); [apply Rmult_le_compat_l; [apply Rmult_le_pos; apply Rabs_pos|exact IU]|]. rewrite Rmult_1_r.
        apply Rmult_le_compat; try apply Rabs_pos; assumption. }
      lra. }
    pose proof (Rabs_pos (b - a + a * (1 + u - w) / (1 + u))). nra. }
  assert (AU : Rabs (a / (1 + u)) <= 1.02).
  { assert (IU : / (1 + u) <= 1) by (rewrite <- Rinv_1; apply Rinv_le_contravar; lra). assert (IU0 : 0 < / (1 + u)) by (apply Rinv_0_lt_compat; lra).
    unfold Rdiv. rewrite Rabs_mult, (Rabs_pos_eq (/ (1 + u))) by lra. pose proof (Rabs_pos a). nra. }
  assert (BW : Rabs (b / w) <= 1.03). { replace (b / w) with ((b / w - a / (1 + u)) + a / (1 + u)) by ring. eapply Rle_trans; [apply Rabs_triang|]. lra. }
  pose proof (r64_err (b / w)) as R. fold k in R.
  replace (r64 (b / w) - a / (1 + u)) with ((r64 (b / w) - b / w) + (b / w - a / (1 + u))) by ring. eapply Rle_trans; [apply Rabs_triang|]. nra.
Qed.
Lemma ratio_gap a b u v p : 0 <= u -> 0 <= v -> Rabs (a * (1 + v) - b * (1 + u)) <= p -> Rabs (a / (1 + u) - b / (1 + v)) <= p.
Proof.
  intros Hu Hv H. replace (a / (1 + u) - b / (1 + v)) with ((a * (1 + v) - b * (1 + u)) * (/ (1 + u) * / (1 + v))) by (field; lra).
  rewrite Rabs_mult. assert (I : forall x, 0 <= x -> 0 < / (1 + x) <= 1) by (intros x Hx; split; [apply Rinv_0_lt_compat; lra|rewrite <- Rinv_1; apply Rinv_le_contravar; lra]).
  pose proof (I u Hu). pose proof (I v Hv). rewrite (Rabs_pos_eq (_ * _)) by nra. pose proof (Rabs_pos (a * (1 + v) - b * (1 + u))). assert (/ (1 + u) * / (1 + v) <= 1) by nra. nra.
Qed.

Lemma r64_r32 x : r64 (r32 x) = r32 x.
Proof.
  apply round_generic; [typeclasses eauto|]. apply (generic_inclusion_mag radix2 (FLT_exp (-149) 24)); [intros _; unfold FLT_exp; lia|apply (@nearest_format 24 (-149) eq_refl)].
Qed.
Lemma r64_opp x : r64 (0 - x) = - r64 x.
Proof. rewrite Rminus_0_l. apply round_NE_opp. Qed.
Lemma val_r64 (z : float FloatFormats.binary64) : r64 (val z) = val z.
Proof. exact (proj2_sig z). Qed.
Lemma r64_double x : r64 x = x -> r64 (2 * x) = 2 * x.
Proof.
  intros H. apply round_generic; [typeclasses eauto|]. assert (F : generic_format radix2 (FLT_exp (-1074) 53) x) by (rewrite <- H; apply (@nearest_format 53 (-1074) eq_refl)).
  apply FLT_format_generic in F; [|reflexivity]. destruct F as [[m e] E B L]. cbn [Defs.Fnum Defs.Fexp] in *. apply generic_format_FLT. exists (Float radix2 m (e + 1)); cbn [Defs.Fnum Defs.Fexp]; [|exact B|lia].
  rewrite E. unfold F2R. cbn [Defs.Fnum Defs.Fexp]. rewrite bpow_plus. change (bpow radix2 1) with 2. ring.
Qed.

(** Sigmoid in a double program, as its text is written: within 2^-21 of the sigmoid,
    for any number. *)
Theorem C83_sigmoid : forall (z : float FloatFormats.binary64), exists v,
  c_value double_expf (write_activation_str double_expf Sigmoid [TId 0]) (fun _ => z) = Some v /\
  Rabs (val v - 1 / (1 + exp (- val z))) <= / 2 ^ 21.
Proof.
  intros z. exists (compute double_expf Sigmoid z). split; [apply (C32_activation_exact double_expf Sigmoid z); exact I|].
  cbn [compute]. unfold nopp. cbn [nlt n0 n1 nexp nadd nsub ndiv double_expf]. pose proof (val_r64 z) as VZ. set (x := val z) in *.
  assert (V : forall y, val (fl FloatFormats.binary64 y) = r64 y) by reflexivity.
  assert (R0 : r64 0 = 0) by apply (@nearest_0 53 (-1074)). assert (R1 : r64 1 = 1) by apply (@nearest_1 53 (-1074) eq_refl ltac:(discriminate)).
  rewrite !V, R0. replace (/ 2 ^ 21) with (8 * u24) by (unfold u24; lra). assert (K : 0 < u24 < / 1000000) by (unfold u24; lra).
  unfold Rltb. destruct (Rlt_dec x 0) as [L|L]; rewrite !V, ?R1.
  - unfold expf at 1 2. rewrite !r64_r32. fold (expf x). pose proof (expf_err x ltac:(lra)) as E. pose proof (expf_range x ltac:(lra)) as U. set (u := expf x) in *.
    pose proof (quotient u u u U ltac:(rewrite Rabs_pos_eq by lra; lra) ltac:(rewrite Rminus_diag_eq, Rabs_R0 by reflexivity; nra)) as Q.
    assert (G : Rabs (u / (1 + u) - exp x / (1 + exp x)) <= 4 * u24).
    { apply ratio_gap; [lra|left; apply exp_pos|]. replace (u * (1 + exp x) - exp x * (1 + u)) with (u - exp x) by ring. exact E. }
    assert (S : 1 / (1 + exp (- x)) = exp x / (1 + exp x)) by (rewrite exp_Ropp; pose proof (exp_pos x); field; lra). rewrite S.
    replace (r64 (u / r64 (1 + u)) - exp x / (1 + exp x)) with ((r64 (u / r64 (1 + u)) - u / (1 + u)) + (u / (1 + u) - exp x / (1 + exp x))) by ring.
    eapply Rle_trans; [apply Rabs_triang|]. nra.
  - rewrite r64_opp, VZ. unfold expf. rewrite !r64_r32. fold (expf (- x)). pose proof (expf_err (- x) ltac:(lra)) as E. pose proof (expf_range (- x) ltac:(lra)) as U. set (u := expf (- x)) in *.
    pose proof (quotient u 1 1 U ltac:(rewrite Rabs_R1; lra) ltac:(rewrite Rminus_diag_eq, Rabs_R0 by reflexivity; nra)) as Q.
    assert (G : Rabs (1 / (1 + u) - 1 / (1 + exp (- x))) <= 4 * u24).
    { apply ratio_gap; [lra|left; apply exp_pos|]. replace (1 * (1 + exp (- x)) - 1 * (1 + u)) with (- (u - exp (- x))) by ring. rewrite Rabs_Ropp. exact E. }
    replace (r64 (1 / r64 (1 + u)) - 1 / (1 + exp (- x))) with ((r64 (1 / r64 (1 + u)) - 1 / (1 + u)) + (1 / (1 + u) - 1 / (1 + exp (- x)))) by ring.
    eapply Rle_trans; [apply Rabs_triang|]. nra.
Qed.
Print Assumptions C83_sigmoid.

(** TanH: within 2^-20. *)
Theorem C83_tanh : forall (z : float FloatFormats.binary64), exists v,
  c_value double_expf (write_activation_str double_expf TanH [TId 0]) (fun _ => z) = Some v /\
  Rabs (val v - (exp (val z) - exp (- val z)) / (exp (val z) + exp (- val z))) <= / 2 ^ 20.
Proof.
  intros z. exists (compute double_expf TanH z). split; [apply (C32_activation_exact double_expf TanH z); exact I|].
  cbn [compute]. unfold nopp. cbn [nlt n0 n1 nexp nadd nsub nmul ndiv nofZ double_expf]. pose proof (val_r64 z) as VZ. set (x := val z) in *.
  assert (V : forall y, val (fl FloatFormats.binary64 y) = r64 y) by reflexivity.
  assert (R0 : r64 0 = 0) by apply (@nearest_0 53 (-1074)). assert (R1 : r64 1 = 1) by apply (@nearest_1 53 (-1074) eq_refl ltac:(discriminate)).
  assert (R2 : r64 2 = 2) by (replace 2 with (2 * 1) by ring; apply r64_double; exact R1).
  rewrite !V, R0. replace (/ 2 ^ 20) with (16 * u24) by (unfold u24; lra). assert (K : 0 < u24 < / 1000000) by (unfold u24; lra).
  assert (TH : (exp x - exp (- x)) / (exp x + exp (- x)) = (exp (2 * x) - 1) / (exp (2 * x) + 1)).
  { replace (2 * x) with (x + x) by ring. rewrite exp_plus, exp_Ropp. pose proof (exp_pos x). field. split; nra. }
  assert (TH' : (exp x - exp (- x)) / (exp x + exp (- x)) = (1 - exp (- 2 * x)) / (1 + exp (- 2 * x))).
  { replace (- 2 * x) with (- x + - x) by ring. rewrite exp_plus, exp_Ropp. pose proof (exp_pos x). field. split; nra. }
  assert (SMALL : forall w, 0 <= w <= 1.01 -> Rabs (w - 1) <= 1.02) by (intros w Hw; apply Rabs_le; lra).
  assert (ROUND : forall w, Rabs w <= 1.02 -> Rabs (r64 w - w) <= 4 * (u24 * u24)) by (intros w Hw; eapply Rle_trans; [apply r64_err|]; pose proof (Rabs_pos w); nra).
  unfold Rltb. destruct (Rlt_dec x 0) as [L|L]; rewrite !V, ?R1, ?R2.
  - rewrite r64_double by exact VZ. unfold expf at 1 2. rewrite !r64_r32. fold (expf (2 * x)). pose proof (expf_err (2 * x) ltac:(lra)) as E. pose proof (expf_range (2 * x) ltac:(lra)) as U. set (u := expf (2 * x)) in *.
    pose proof (quotient u (u - 1) (r64 (u - 1)) U (SMALL u U) (ROUND _ (SMALL u U))) as Q. rewrite TH, (Rplus_comm (exp (2 * x))), (Rplus_comm u).
    assert (G : Rabs ((u - 1) / (1 + u) - (exp (2 * x) - 1) / (1 + exp (2 * x))) <= 8 * u24).
    { apply ratio_gap; [lra|left; apply exp_pos|]. replace ((u - 1) * (1 + exp (2 * x)) - (exp (2 * x) - 1) * (1 + u)) with (2 * (u - exp (2 * x))) by ring. rewrite Rabs_mult, (Rabs_pos_eq 2) by lra. lra. }
    replace (r64 (r64 (u - 1) / r64 (1 + u)) - (exp (2 * x) - 1) / (1 + exp (2 * x))) with ((r64 (r64 (u - 1) / r64 (1 + u)) - (u - 1) / (1 + u)) + ((u - 1) / (1 + u) - (exp (2 * x) - 1) / (1 + exp (2 * x)))) by ring.
    eapply Rle_trans; [apply Rabs_triang|]. nra.
  - rewrite r64_opp, R2. assert (D : r64 (- (2) * x) = - 2 * x).
    { replace (- (2) * x) with (0 - 2 * x) by ring. rewrite r64_opp, r64_double by exact VZ. ring. }
    rewrite D. unfold expf. rewrite !r64_r32. fold (expf (- 2 * x)). pose proof (expf_err (- 2 * x) ltac:(lra)) as E. pose proof (expf_range (- 2 * x) ltac:(lra)) as U. set (u := expf (- 2 * x)) in *.
    assert (SM : Rabs (1 - u) <= 1.02) by (rewrite Rabs_minus_sym; apply SMALL; exact U).
    pose proof (quotient u (1 - u) (r64 (1 - u)) U SM (ROUND _ SM)) as Q. rewrite TH'.
    assert (G : Rabs ((1 - u) / (1 + u) - (1 - exp (- 2 * x)) / (1 + exp (- 2 * x))) <= 8 * u24).
    { apply ratio_gap; [lra|left; apply exp_pos|]. replace ((1 - u) * (1 + exp (- 2 * x)) - (1 - exp (- 2 * x)) * (1 + u)) with (- 2 * (u - exp (- 2 * x))) by ring. rewrite Rabs_mult, (Rabs_left (- 2)) by lra. lra. }
    replace (r64 (r64 (1 - u) / r64 (1 + u)) - (1 - exp (- 2 * x)) / (1 + exp (- 2 * x))) with ((r64 (r64 (1 - u) / r64 (1 + u)) - (1 - u) / (1 + u)) + ((1 - u) / (1 + u) - (1 - exp (- 2 * x)) / (1 + exp (- 2 * x)))) by ring.
    eapply Rle_trans; [apply Rabs_triang|]. nra.
Qed.
Print Assumptions C83_tanh.

(** A number near 1 is 1 for a float. *)
Lemma expf_one t : t <= 0 -> - t <= / 2 ^ 26 -> expf t = 1.
Proof.
  intros L B. unfold expf. set (s := r32 t).
  assert (S0 : s <= 0) by (unfold s; rewrite <- (@nearest_0 24 (-149)); apply (@nearest_mono 24 (-149) eq_refl); exact L).
  assert (S1 : - / 2 ^ 26 <= s).
  { unfold s. replace (- / 2 ^ 26) with (r32 (- / 2 ^ 26)); [apply (@nearest_mono 24 (-149) eq_refl); lra|].
    apply round_generic; [typeclasses eauto|]. apply generic_format_FLT. exists (Float radix2 (-1) (-26)); cbn [Defs.Fnum Defs.Fexp]; [|reflexivity|lia]. unfold F2R; cbn [Defs.Fnum Defs.Fexp bpow]. change (Z.pow_pos radix2 26) with 67108864%Z.
    replace (2 ^ 26) with 67108864 by (cbn; ring). ring. }
  apply (@recover 24 (-149) eq_refl); [rewrite <- (@nearest_1 24 (-149) eq_refl ltac:(discriminate)); apply (@nearest_format 24 (-149) eq_refl)|].
  left. pose proof (exp_ineq1_le s). assert (exp s <= 1) by (rewrite <- exp_0; destruct S0 as [S0| ->]; [left; apply exp_increasing; exact S0|right; reflexivity]).
  rewrite Rabs_left1, Rabs_R1 by lra. change (bpow radix2 (- (24))) with (/ 16777216). lra.
Qed.
Lemma half_exact : r64 (1 / 2) = 1 / 2.
Proof.
  apply round_generic; [typeclasses eauto|]. apply generic_format_FLT. exists (Float radix2 1 (-1)); cbn [Defs.Fnum Defs.Fexp]; [unfold F2R; cbn [Defs.Fnum Defs.Fexp bpow]; change (Z.pow_pos radix2 1) with 2%Z; lra|reflexivity|lia].
Qed.
Definition power (e : Z) : float FloatFormats.binary64 := fl FloatFormats.binary64 (bpow radix2 e).
Lemma val_power e : (-1074 <= e)%Z -> val (power e) = bpow radix2 e.
Proof.
  intros H. change (r64 (bpow radix2 e) = bpow radix2 e). apply round_generic; [typeclasses eauto|]. apply generic_format_FLT. exists (Float radix2 1 e); cbn [Defs.Fnum Defs.Fexp]; [unfold F2R; cbn [Defs.Fnum Defs.Fexp]; ring|reflexivity|exact H].
Qed.
(** The accuracy of double (that C78_sigmoid would give, 2^-50) is refuted: at 2^-27 the
    program computes 1/2. *)
Theorem C83_sigmoid_refuted : ~ (forall (z v : float FloatFormats.binary64),
  c_value double_expf (write_activation_str double_expf Sigmoid [TId 0]) (fun _ => z) = Some v ->
  Rabs (val v - 1 / (1 + exp (- val z))) <= / 2 ^ 50).
Proof.
  intros H. specialize (H (power (-27)) (compute double_expf Sigmoid (power (-27))) (C32_activation_exact double_expf Sigmoid _ I)).
  cbn [compute] in H. unfold nopp in H. cbn [nlt n0 n1 nexp nadd nsub ndiv double_expf] in H. rewrite (val_power (-27) ltac:(lia)) in H. set (x := bpow radix2 (-27)) in *.
  assert (V : forall y, val (fl FloatFormats.binary64 y) = r64 y) by reflexivity.
  assert (R0 : r64 0 = 0) by apply (@nearest_0 53 (-1074)). assert (R1 : r64 1 = 1) by apply (@nearest_1 53 (-1074) eq_refl ltac:(discriminate)).
  assert (X : x = / 2 ^ 27) by (unfold x; cbn [bpow]; change (Z.pow_pos radix2 27) with 134217728%Z; lra).
  rewrite !V, R0 in H. unfold Rltb in H. destruct (Rlt_dec x 0) as [L|L]; [rewrite X in L; lra|]. rewrite !V, ?R1 in H.
  rewrite r64_opp in H. assert (RX : r64 x = x) by exact (val_power (-27) ltac:(lia)). rewrite RX in H.
  rewrite (expf_one (- x)) in H by (rewrite X; lra). rewrite R1 in H. replace (1 + 1) with (2 * 1) in H at 1 by ring. rewrite (r64_double 1 R1), Rmult_1_r, half_exact in H.
  assert (E : exp (- x) <= 1 - x / 2).
  { assert (P : exp x * exp (- x) = 1) by (rewrite <- exp_plus, Rplus_opp_r; apply exp_0). pose proof (exp_ineq1_le x) as I. pose proof (exp_pos (- x)) as Q. assert (0 < x < 1) by (rewrite X; lra). assert ((1 + x) * exp (- x) <= 1) by nra. assert ((1 + x) * (1 - x / 2) >= 1) by nra. nra. }
  assert (G : 1 / (1 + exp (- x)) - 1 / 2 >= x / 8).
  { pose proof (exp_pos (- x)) as Q. replace (1 / (1 + exp (- x)) - 1 / 2) with ((1 - exp (- x)) / 2 * / (1 + exp (- x))) by (field; lra).
    assert (/ 2 <= / (1 + exp (- x))) by (apply Rinv_le_contravar; [lra|]; assert (0 < x) by (rewrite X; lra); lra). assert (0 < x) by (rewrite X; lra). nra. }
  apply Rabs_le_inv in H. rewrite X in G at 2. lra.
Qed.
Print Assumptions C83_sigmoid_refuted.
(** TanH of a small number is 0 in a double program. *)
Theorem C83_tanh_refuted : ~ (forall (z v : float FloatFormats.binary64),
  c_value double_expf (write_activation_str double_expf TanH [TId 0]) (fun _ => z) = Some v ->
  Rabs (val v - (exp (val z) - exp (- val z)) / (exp (val z) + exp (- val z))) <= / 2 ^ 50).
Proof.
  intros H. specialize (H (power (-27)) (compute double_expf TanH (power (-27))) (C32_activation_exact double_expf TanH _ I)).
  cbn [compute] in H. unfold nopp in H. cbn [nlt n0 n1 nexp nadd nsub nmul ndiv nofZ double_expf] in H. rewrite (val_power (-27) ltac:(lia)) in H. set (x := bpow radix2 (-27)) in *.
  assert (V : forall y, val (fl FloatFormats.binary64 y) = r64 y) by reflexivity.
  assert (R0 : r64 0 = 0) by apply (@nearest_0 53 (-1074)). assert (R1 : r64 1 = 1) by apply (@nearest_1 53 (-1074) eq_refl ltac:(discriminate)).
  assert (R2 : r64 2 = 2) by (replace 2 with (2 * 1) by ring; apply r64_double; exact R1).
  assert (X : x = / 2 ^ 27) by (unfold x; cbn [bpow]; change (Z.pow_pos radix2 27) with 134217728%Z; lra).
  rewrite !V, R0 in H. unfold Rltb in H. destruct (Rlt_dec x 0) as [L|L]; [rewrite X in L; lra|]. rewrite !V, ?R1, ?R2 in H.
  assert (RX : r64 x = x) by exact (val_power (-27) ltac:(lia)). rewrite r64_opp, R2 in H.
  assert (D : r64 (- (2) * x) = - (2 * x)) by (replace (- (2) * x) with (0 - 2 * x) by ring; rewrite r64_opp, r64_double by exact RX; ring).
  rewrite D, (expf_one (- (2 * x))) in H by (rewrite X; lra). rewrite R1 in H.
  assert (Z0 : r64 (r64 (1 - 1) / r64 (1 + 1)) = 0) by (rewrite Rminus_diag_eq, R0 by reflexivity; unfold Rdiv; rewrite Rmult_0_l; exact R0). rewrite Z0 in H.
  assert (P : exp x * exp (- x) = 1) by (rewrite <- exp_plus, Rplus_opp_r; apply exp_0). pose proof (exp_ineq1_le x) as I. pose proof (exp_pos (- x)) as Q. assert (X0 : 0 < x < 1) by (rewrite X; lra).
  assert (E : exp (- x) <= 1 - x / 2) by (assert ((1 + x) * exp (- x) <= 1) by nra; assert ((1 + x) * (1 - x / 2) >= 1) by nra; nra).
  assert (G : (exp x - exp (- x)) / (exp x + exp (- x)) >= x / 2).
  { assert (DE : 0 < exp x + exp (- x)) by lra. apply Rle_ge. apply Rmult_le_reg_r with (exp x + exp (- x)); [exact DE|].
    unfold Rdiv at 2. rewrite Rmult_assoc, Rinv_l, Rmult_1_r by lra.
    assert (EX : exp x <= 3 / 2). { assert (exp (- x) >= 1 - x) by (pose proof (exp_ineq1_le (- x)); lra). assert (x <= 0.1) by (rewrite X; lra). nra. }
    nra. }
  apply Rabs_le_inv in H. rewrite X in G at 5. lra.
Qed.
Print Assumptions C83_tanh_refuted.

(** The linear Resize reads pixels as floats: at the position of a pixel it gives that
    pixel converted to float. *)
Lemma integer_exact z : (Z.abs z <= 2 ^ 24)%Z -> r32 (IZR z) = IZR z.
Proof.
  intros H. apply round_generic; [typeclasses eauto|]. destruct (Z.eq_dec (Z.abs z) (2 ^ 24)) as [E|E].
  - apply generic_format_FLT. exists (Float radix2 (Z.sgn z) 24); cbn [Defs.Fnum Defs.Fexp]; [|change (radix2 ^ 24)%Z with (2 ^ 24)%Z; lia|lia].
    unfold F2R. cbn [Defs.Fnum Defs.Fexp bpow]. change (Z.pow_pos radix2 24) with (2 ^ 24)%Z. rewrite <- mult_IZR. f_equal. lia.
  - apply generic_format_FLT. exists (Float radix2 z 0); cbn [Defs.Fnum Defs.Fexp]; [unfold F2R; cbn [Defs.Fnum Defs.Fexp bpow]; ring|change (radix2 ^ 24)%Z with (2 ^ 24)%Z; lia|lia].
Qed.
Theorem C83_linear_grid : forall p11 p12 p21 p22 x0 y0, (0 <= x0 < 2 ^ 24)%Z -> (0 <= y0 < 2 ^ 24)%Z ->
  linear_pixel p11 p12 p21 p22 (IZR x0) (IZR y0) x0 y0 = to_binary32 p11.
Proof.
  intros p11 p12 p21 p22 x0 y0 Hx Hy. unfold linear_pixel.
  assert (R0 : r32 0 = 0) by apply (@nearest_0 24 (-149)). assert (R1 : r32 1 = 1) by apply (@nearest_1 24 (-149) eq_refl ltac:(discriminate)).
  assert (I : forall y, r32 (r32 y) = r32 y) by (intros y; apply (@nearest_idem 24 (-149) eq_refl)).
  rewrite !(integer_exact x0), !(integer_exact y0), !(integer_exact (x0 + 1)), !(integer_exact (y0 + 1)) by lia.
  rewrite !plus_IZR. replace (IZR x0 + 1 - IZR x0) with 1 by ring. replace (IZR y0 + 1 - IZR y0) with 1 by ring.
  replace ((x0 + 1 - x0) * (y0 + 1 - y0))%Z with 1%Z by ring. rewrite !Rminus_diag_eq, !R0, !R1 by reflexivity.
  rewrite ?Rmult_0_r, ?R0, ?Rmult_1_r, ?I, ?Rmult_0_l, ?R0, ?Rmult_0_l, ?R0, ?Rplus_0_r, ?I. unfold Rdiv. rewrite ?Rinv_1, ?Rmult_1_r, ?I.
  reflexivity.
Qed.
Print Assumptions C83_linear_grid.
(** Elsewhere it interpolates with the precision of float: p11 is the pixel at (x0, y0),
    p21 at (x0 + 1, y0), p12 at (x0, y0 + 1) and p22 at (x0 + 1, y0 + 1). *)
Lemma round_near X y d B t : Rabs (X - y) <= d -> Rabs y <= B -> u24 * (B + d) + / 2 ^ 150 <= t -> Rabs (r32 X - y) <= d + t.
Proof.
  intros H1 H2 H3. pose proof (@nearest_err 24 (-149) eq_refl X) as N. rewrite unit_half, least_half in N. change (bpow radix2 (- (24))) with u24 in N.
  assert (E : bpow radix2 (-149 - 1) = / 2 ^ 150) by (change (-149 - 1)%Z with (- (150))%Z; rewrite bpow_opp, <- IZR_Zpower by lia; change (radix2 ^ 150)%Z with (2 ^ 150)%Z; rewrite (pow_IZR 2 150); reflexivity).
  rewrite E in N. change (FloatFormats.nearest 24 (-149) X) with (r32 X) in N. replace (r32 X - y) with ((r32 X - X) + (X - y)) by ring. eapply Rle_trans; [apply Rabs_triang|].
  assert (AX : Rabs X <= B + d) by (replace X with (y + (X - y)) by ring; eapply Rle_trans; [apply Rabs_triang|lra]). assert (0 < u24) by (unfold u24; lra). nra.
Qed.
Lemma product_near X Y x y dx dy Bx By : Rabs (X - x) <= dx -> Rabs (Y - y) <= dy -> Rabs x <= Bx -> Rabs y <= By -> Rabs (X * Y - x * y) <= dx * By + Bx * dy + dx * dy.
Proof.
  intros H1 H2 H3 H4. replace (X * Y - x * y) with ((X - x) * y + x * (Y - y) + (X - x) * (Y - y)) by ring.
  eapply Rle_trans; [apply Rabs_triang|]. apply Rplus_le_compat; [eapply Rle_trans; [apply Rabs_triang|]; apply Rplus_le_compat|]; rewrite Rabs_mult; apply Rmult_le_compat; try apply Rabs_pos; assumption.
Qed.
Lemma sum_near X Y x y dx dy : Rabs (X - x) <= dx -> Rabs (Y - y) <= dy -> Rabs (X + Y - (x + y)) <= dx + dy.
Proof. intros H1 H2. replace (X + Y - (x + y)) with ((X - x) + (Y - y)) by ring. eapply Rle_trans; [apply Rabs_triang|]. lra. Qed.
Theorem C83_linear : forall p11 p12 p21 p22 x y x0 y0 M, (0 <= x0 < 2 ^ 24)%Z -> (0 <= y0 < 2 ^ 24)%Z ->
  IZR x0 <= x <= IZR x0 + 1 -> IZR y0 <= y <= IZR y0 + 1 ->
  / 2 ^ 100 <= M -> Rabs p11 <= M -> Rabs p12 <= M -> Rabs p21 <= M -> Rabs p22 <= M ->
  Rabs (linear_pixel p11 p12 p21 p22 x y x0 y0 -
        ((1 - (x - IZR x0)) * (1 - (y - IZR y0)) * p11 + (x - IZR x0) * (1 - (y - IZR y0)) * p21 +
         (1 - (x - IZR x0)) * (y - IZR y0) * p12 + (x - IZR x0) * (y - IZR y0) * p22)) <= / 2 ^ 18 * M.
Proof.
  intros p11 p12 p21 p22 x y x0 y0 M Hx Hy Px Py HM H11 H12 H21 H22. unfold linear_pixel.
  rewrite !(integer_exact x0), !(integer_exact y0), !(integer_exact (x0 + 1)), !(integer_exact (y0 + 1)) by lia.
  replace ((x0 + 1 - x0) * (y0 + 1 - y0))%Z with 1%Z by ring. rewrite (integer_exact 1) by lia. rewrite !plus_IZR. unfold Rdiv. rewrite Rinv_1, Rmult_1_r.
  replace (IZR x0 + 1 - x) with (1 - (x - IZR x0)) by ring. replace (IZR y0 + 1 - y) with (1 - (y - IZR y0)) by ring.
  set (a := x - IZR x0). set (b := y - IZR y0). assert (Ha : 0 <= a <= 1) by (unfold a; lra). assert (Hb : 0 <= b <= 1) by (unfold b; lra).
  assert (W : forall w, 0 <= w <= 1 -> Rabs (r32 w - w) <= 1.1 * u24).
  { intros w Hw. replace (1.1 * u24) with (0 + 1.1 * u24) by ring. apply (round_near w w 0 1); [rewrite Rminus_diag_eq, Rabs_R0 by reflexivity; lra|rewrite Rabs_pos_eq by lra; lra|unfold u24; lra]. }
  assert (Q : forall p v w, Rabs p <= M -> 0 <= v <= 1 -> 0 <= w <= 1 -> Rabs (v * w * p) <= M /\ Rabs (r32 (r32 (r32 p * r32 v) * r32 w) - v * w * p) <= 6 * u24 * M).
  { intros p v w Hp Hv Hw. assert (BV : Rabs (p * v) <= M) by (rewrite Rabs_mult, (Rabs_pos_eq v) by lra; pose proof (Rabs_pos p); nra).
    assert (BW : Rabs (p * v * w) <= M) by (rewrite Rabs_mult, (Rabs_pos_eq w) by lra; pose proof (Rabs_pos (p * v)); nra).
    replace (v * w * p) with (p * v * w) by ring. split; [exact BW|].
    assert (P1 : Rabs (r32 p - p) <= 0 + 1.1 * u24 * M) by (apply (round_near p p 0 M); [rewrite Rminus_diag_eq, Rabs_R0 by reflexivity; lra|exact Hp|unfold u24; lra]).
    pose proof (product_near _ _ _ _ _ _ M 1 P1 (W v Hv) Hp ltac:(rewrite Rabs_pos_eq; lra)) as P2.
    assert (P3 : Rabs (r32 (r32 p * r32 v) - p * v) <= 2.3 * u24 * M + 1.1 * u24 * M) by (apply (round_near _ _ _ M); [eapply Rle_trans; [exact P2|unfold u24; lra]|exact BV|unfold u24; lra]).
    pose proof (product_near _ _ _ _ _ _ M 1 P3 (W w Hw) BV ltac:(rewrite Rabs_pos_eq; lra)) as P4.
    eapply Rle_trans; [apply (round_near _ _ (4.7 * u24 * M) M (1.1 * u24 * M)); [eapply Rle_trans; [exact P4|unfold u24; lra]|exact BW|unfold u24; lra]|unfold u24; lra]. }
  destruct (Q p11 (1 - a) (1 - b) H11 ltac:(lra) ltac:(lra)) as [B11 Q11]. destruct (Q p21 a (1 - b) H21 ltac:(lra) ltac:(lra)) as [B21 Q21].
  destruct (Q p12 (1 - a) b H12 ltac:(lra) ltac:(lra)) as [B12 Q12]. destruct (Q p22 a b H22 ltac:(lra) ltac:(lra)) as [B22 Q22].
  assert (S2 : forall X Y s t D E, Rabs (X - s) <= D * u24 * M -> Rabs (Y - t) <= 6 * u24 * M -> Rabs s <= E * M -> Rabs t <= M -> 0 <= D <= 40 -> 0 <= E <= 3 ->
    Rabs (s + t) <= (E + 1) * M /\ Rabs (r32 (X + Y) - (s + t)) <= (D + 6 + E + 1.1) * u24 * M).
  { intros X Y s t D E HX HY Hs Ht HD HE. assert (B : Rabs (s + t) <= (E + 1) * M) by (eapply Rle_trans; [apply Rabs_triang|lra]). split; [exact B|].
    pose proof (sum_near _ _ _ _ _ _ HX HY) as S. eapply Rle_trans; [apply (round_near _ _ _ _ ((E + 1.1) * u24 * M) S B)|right; ring].
    assert (0 < u24 * M) by (unfold u24; lra). assert (u24 * (D * u24 * M + 6 * u24 * M) <= 0.05 * (u24 * M)) by (unfold u24 at 1 2 3 4; unfold u24; nra). assert (/ 2 ^ 150 <= 0.01 * (u24 * M)) by (unfold u24; lra). nra. }
  destruct (S2 _ _ _ _ 6 1 Q11 Q21 ltac:(lra) B21 ltac:(lra) ltac:(lra)) as [C1 S1].
  destruct (S2 _ _ _ _ _ _ S1 Q12 C1 B12 ltac:(lra) ltac:(lra)) as [C2 S3].
  destruct (S2 _ _ _ _ _ _ S3 Q22 C2 B22 ltac:(lra) ltac:(lra)) as [C3 S4].
  eapply Rle_trans; [apply (round_near _ _ _ _ (5 * u24 * M) S4 C3); unfold u24; lra|unfold u24; lra].
Qed.
Print Assumptions C83_linear.
(** So the double program does not copy the pixels that lie on the grid. *)
Theorem C83_linear_refuted : ~ (forall p11 p12 p21 p22 x0 y0,
  in_binary64 p11 -> in_binary64 p12 -> in_binary64 p21 -> in_binary64 p22 -> (0 <= x0 < 2 ^ 24)%Z -> (0 <= y0 < 2 ^ 24)%Z ->
  linear_pixel p11 p12 p21 p22 (IZR x0) (IZR y0) x0 y0 = p11).
Proof.
  intros H. set (p := IZR (2 ^ 30 + 1) * bpow radix2 (-30)).
  assert (F : in_binary64 p) by (apply generic_format_FLT; exists (Float radix2 (2 ^ 30 + 1) (-30)); cbn [Defs.Fnum Defs.Fexp]; [reflexivity|reflexivity|lia]).
  specialize (H p p p p 0%Z 0%Z F F F F ltac:(lia) ltac:(lia)). rewrite C83_linear_grid in H by lia.
  assert (P : p = 1 + / 2 ^ 30) by (unfold p; cbn [bpow]; change (Z.pow_pos radix2 30) with 1073741824%Z; change (2 ^ 30 + 1)%Z with 1073741825%Z; lra).
  assert (E : r32 p = 1).
  { apply (@recover 24 (-149) eq_refl); [rewrite <- (@nearest_1 24 (-149) eq_refl ltac:(discriminate)); apply (@nearest_format 24 (-149) eq_refl)|].
    left. rewrite P, Rabs_R1, Rabs_pos_eq by lra. change (bpow radix2 (- (24))) with (/ 16777216). lra. }
  rewrite E, P in H. lra.
Qed.
Print Assumptions C83_linear_refuted.
(** Non-vacuity: at 0 the program computes exactly 1/2, and the pixel of the position (1, 2)
    of a 4 x 4 grid is copied. *)
Example C83_half : exists v, c_value double_expf (write_activation_str double_expf Sigmoid [TId 0]) (fun _ => power (-27)) = Some v /\ Rabs (val v - 1 / (1 + exp (- bpow radix2 (-27)))) <= / 2 ^ 21.
Proof. destruct (C83_sigmoid (power (-27))) as [v [E B]]. exists v. rewrite (val_power (-27)) in B by lia. split; assumption. Qed.
Example C83_copied : linear_pixel 7 8 9 10 1 2 1 2 = 7.
Proof. pose proof (C83_linear_grid 7 8 9 10 1 2 ltac:(lia) ltac:(lia)) as H. rewrite H. apply integer_exact. lia. Qed.
