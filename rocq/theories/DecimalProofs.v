(** Proofs about Decimal.v. *)
From Coq Require Import String Ascii.
From Coq Require Import ZArith List Lia Bool Reals Lra.
From Flocq Require Import Core Digits.
From Verif Require Import HexLit HexLitProofs FloatFormats Decimal.
Import ListNotations.
Open Scope list_scope.
Open Scope Z_scope.

(** ** Reading back: two numbers of a format are far apart. *)
Section Far.
  Context (prec emin : Z) (Hp : 0 < prec).
  Local Instance prec_pos : Prec_gt_0 prec := Hp.
  Local Notation fmt := (generic_format radix2 (FLT_exp emin prec)).
  Open Scope R_scope.
  Lemma far x f : fmt x -> fmt f -> f <> x -> bpow radix2 (- prec) * Rabs x <= Rabs (f - x).
  Proof.
    intros Fx Ff NE. destruct (Req_dec x 0) as [->|NX]; [rewrite Rabs_R0, Rmult_0_r; apply Rabs_pos|].
    apply FLT_format_generic in Ff; [|exact Hp]. destruct Ff as [[mf ef] Ef Bf Lf]. cbn [Fnum Fexp] in Bf, Lf.
    unfold generic_format in Fx.
    set (ex := cexp radix2 (FLT_exp emin prec) x) in *. set (mx := Ztrunc (scaled_mantissa radix2 (FLT_exp emin prec) x)) in *.
    assert (EX : x = IZR mx * bpow radix2 ex) by exact Fx. assert (EF : f = IZR mf * bpow radix2 ef) by exact Ef.
    pose proof (bpow_mag_le radix2 x NX) as LM. pose proof (bpow_mag_gt radix2 x) as GM.
    assert (CE : ex = Z.max (mag radix2 x - prec) emin) by reflexivity.
    assert (B1 : Rabs x <= bpow radix2 (prec + ex)) by (apply Rle_trans with (bpow radix2 (mag radix2 x)); [lra|apply bpow_le; lia]).
    assert (step : forall k, (k <= ex)%Z -> (k <= ef)%Z -> bpow radix2 k <= Rabs (f - x)).
    { intros k K1 K2. replace (f - x) with (IZR (mf * 2 ^ (ef - k) - mx * 2 ^ (ex - k)) * bpow radix2 k).
      - rewrite Rabs_mult, (Rabs_pos_eq (bpow radix2 k)) by apply bpow_ge_0. rewrite <- (Rmult_1_l (bpow radix2 k)) at 1. apply Rmult_le_compat_r; [apply bpow_ge_0|].
        rewrite <- abs_IZR. apply (IZR_le 1). enough (mf * 2 ^ (ef - k) - mx * 2 ^ (ex - k) <> 0)%Z by lia. intros E0. apply NE. rewrite EX, EF.
        replace ef with ((ef - k) + k)%Z by lia. replace ex with ((ex - k) + k)%Z by lia. rewrite !bpow_plus. rewrite <- (IZR_Zpower radix2 (ef - k)) by lia. rewrite <- (IZR_Zpower radix2 (ex - k)) by lia.
        rewrite <- !Rmult_assoc, <- !mult_IZR. apply f_equal2; [apply f_equal|reflexivity]. change (radix_val radix2) with 2%Z. lia.
      - rewrite minus_IZR, !mult_IZR. change (2 ^ (ef - k))%Z with (Z.pow radix2 (ef - k)). change (2 ^ (ex - k))%Z with (Z.pow radix2 (ex - k)).
        rewrite (IZR_Zpower radix2 (ef - k)), (IZR_Zpower radix2 (ex - k)) by lia. rewrite EX, EF. replace ef with ((ef - k) + k)%Z at 2 by lia. replace ex with ((ex - k) + k)%Z at 2 by lia. rewrite !bpow_plus. ring. }
    destruct (Z_le_gt_dec ex ef) as [L|G].
    - eapply Rle_trans; [|apply (step ex); lia]. eapply Rle_trans; [apply Rmult_le_compat_l; [apply bpow_ge_0|exact B1]|]. rewrite <- bpow_plus. apply Req_le. f_equal. lia.
    - assert (EM : mag radix2 x = (prec + ex)%Z :> Z) by lia. rewrite EM in LM.
      assert (BF : Rabs f <= bpow radix2 (prec + ex - 1) - bpow radix2 (ex - 1)).
      { rewrite EF, Rabs_mult, (Rabs_pos_eq (bpow _ _)) by apply bpow_ge_0. rewrite <- abs_IZR.
        apply Rle_trans with (IZR (2 ^ prec - 1) * bpow radix2 (ex - 1)).
        - apply Rmult_le_compat; [apply IZR_le; lia|apply bpow_ge_0|apply IZR_le; change (2 ^ prec)%Z with (Z.pow radix2 prec); lia|apply bpow_le; lia].
        - rewrite minus_IZR. change (2 ^ prec)%Z with (Z.pow radix2 prec). rewrite IZR_Zpower by lia. rewrite Rmult_minus_distr_r, <- bpow_plus. replace (prec + (ex - 1))%Z with (prec + ex - 1)%Z by lia. lra. }
      assert (T : Rabs x - Rabs f <= Rabs (f - x)) by (rewrite Rabs_minus_sym; apply Rabs_triang_inv).
      assert (P1 : bpow radix2 (- prec) <= 1) by (change 1 with (bpow radix2 0); apply bpow_le; lia).
      assert (EQ : bpow radix2 (- prec) * bpow radix2 (prec + ex - 1) = bpow radix2 (ex - 1)) by (rewrite <- bpow_plus; f_equal; lia).
      assert (S1 : (1 - bpow radix2 (- prec)) * bpow radix2 (prec + ex - 1) <= (1 - bpow radix2 (- prec)) * Rabs x) by (apply Rmult_le_compat_l; lra).
      lra.
  Qed.
  (** A number as near to a number of the format as this is rounded to it. *)
  Lemma recover x y : fmt x -> 2 * Rabs (y - x) < bpow radix2 (- prec) * Rabs x \/ y = x -> FloatFormats.nearest prec emin y = x.
  Proof.
    intros Fx [Hy| ->]; [|apply round_generic; [typeclasses eauto|exact Fx]].
    destruct (Req_dec (FloatFormats.nearest prec emin y) x) as [E|NE]; [exact E|exfalso].
    pose proof (@nearest_format prec emin Hp y) as FN. pose proof (far x _ Fx FN NE) as F.
    destruct (round_N_pt radix2 (FLT_exp emin prec) (fun z => negb (Z.even z)) y) as [_ B]. specialize (B x Fx).
    change (Rabs (FloatFormats.nearest prec emin y - y) <= Rabs (x - y)) in B. rewrite (Rabs_minus_sym x y) in B.
    assert (T : Rabs (FloatFormats.nearest prec emin y - x) <= Rabs (FloatFormats.nearest prec emin y - y) + Rabs (y - x)).
    { replace (FloatFormats.nearest prec emin y - x) with ((FloatFormats.nearest prec emin y - y) + (y - x)) by ring. apply Rabs_triang. }
    lra.
  Qed.
End Far.

(** ** The digits. *)
Lemma exponent10_ok a b : 0 < a -> 0 < b -> (bpow radix10 (exponent10 a b) <= IZR a / IZR b < bpow radix10 (exponent10 a b + 1))%R.
Proof.
  intros Ha Hb. assert (Rb : (0 < IZR b)%R) by (apply (IZR_lt 0); lia). unfold exponent10. destruct (Z.leb_spec b a) as [L|L].
  - set (n := a / b). assert (Hn : 1 <= n) by (apply Z.div_le_lower_bound; lia). pose proof (Zdigits_correct radix10 n) as D. rewrite Z.abs_eq in D by lia.
    set (d := Zdigits radix10 n) in *. assert (Hd : 0 < d) by (unfold d; apply Zdigits_gt_0; lia). replace (d - 1 + 1) with d by lia.
    rewrite <- !IZR_Zpower by lia. pose proof (Z.mul_div_le a b ltac:(lia)) as M1. pose proof (Z.mul_succ_div_gt a b ltac:(lia)) as M2. fold n in M1, M2. split.
    + apply Rmult_le_reg_r with (IZR b); [exact Rb|]. unfold Rdiv. rewrite Rmult_assoc, Rinv_l, Rmult_1_r by Lra.lra. rewrite <- mult_IZR. apply IZR_le. nia.
    + apply Rmult_lt_reg_r with (IZR b); [exact Rb|]. unfold Rdiv. rewrite Rmult_assoc, Rinv_l, Rmult_1_r by Lra.lra. rewrite <- mult_IZR. apply IZR_lt. nia.
  - set (q := (b - 1) / a). assert (Hq : 1 <= q) by (apply Z.div_le_lower_bound; lia). pose proof (Zdigits_correct radix10 q) as D. rewrite Z.abs_eq in D by lia.
    set (k := Zdigits radix10 q) in *. assert (Hk : 0 < k) by (unfold k; apply Zdigits_gt_0; lia).
    pose proof (Z.mul_div_le (b - 1) a ltac:(lia)) as M1. pose proof (Z.mul_succ_div_gt (b - 1) a ltac:(lia)) as M2. fold q in M1, M2.
    replace (- k + 1) with (- (k - 1)) by lia. rewrite !bpow_opp, <- !IZR_Zpower by lia.
    assert (P0 : 0 < radix10 ^ (k - 1)) by (apply (Zpower_gt_0 radix10); lia). assert (P1 : 0 < radix10 ^ k) by (apply (Zpower_gt_0 radix10); lia).
    assert (R0 : (0 < IZR (radix10 ^ (k - 1)))%R) by (apply (IZR_lt 0); exact P0). assert (R1 : (0 < IZR (radix10 ^ k))%R) by (apply (IZR_lt 0); exact P1).
    split.
    + apply Rmult_le_reg_r with (IZR b); [exact Rb|]. unfold Rdiv. rewrite Rmult_assoc, Rinv_l, Rmult_1_r by Lra.lra.
      apply Rmult_le_reg_l with (IZR (radix10 ^ k)); [exact R1|]. rewrite <- Rmult_assoc, Rinv_r, Rmult_1_l by Lra.lra. rewrite <- mult_IZR. apply IZR_le. nia.
    + apply Rmult_lt_reg_r with (IZR b); [exact Rb|]. unfold Rdiv. rewrite Rmult_assoc, Rinv_l, Rmult_1_r by Lra.lra.
      apply Rmult_lt_reg_l with (IZR (radix10 ^ (k - 1))); [exact R0|]. rewrite <- Rmult_assoc, Rinv_r, Rmult_1_l by Lra.lra. rewrite <- mult_IZR. apply IZR_lt. nia.
Qed.
Lemma divide_even_ok n d : 0 < d -> (Rabs (IZR (divide_even n d) - IZR n / IZR d) <= / 2)%R.
Proof.
  intros Hd. assert (Rd : (0 < IZR d)%R) by (apply (IZR_lt 0); lia). pose proof (Z.div_mod n d ltac:(lia)) as E. pose proof (Z.mod_pos_bound n d Hd) as B.
  assert (Q : - d <= 2 * (divide_even n d * d - n) <= d).
  { unfold divide_even. destruct (Z.compare_spec (2 * (n mod d)) d); [destruct (Z.even (n / d))| |]; nia. }
  set (D := divide_even n d) in *. replace (IZR D - IZR n / IZR d)%R with (IZR (D * d - n) / IZR d)%R by (rewrite minus_IZR, mult_IZR; field; Lra.lra).
  unfold Rdiv. rewrite Rabs_mult, Rabs_inv, (Rabs_pos_eq (IZR d)) by Lra.lra. apply Rmult_le_reg_r with (IZR d); [exact Rd|]. rewrite Rmult_assoc, Rinv_l, Rmult_1_r by Lra.lra.
  apply Rmult_le_reg_l with 2%R; [Lra.lra|]. rewrite <- Rmult_assoc, Rinv_r, Rmult_1_l by Lra.lra. rewrite <- abs_IZR, <- (mult_IZR 2). apply IZR_le. lia.
Qed.
Lemma scaled10_ok a b s : 0 < b -> (Rabs (IZR (scaled10 a b s) - IZR a / IZR b * bpow radix10 s) <= / 2)%R.
Proof.
  intros Hb. assert (Rb : (0 < IZR b)%R) by (apply (IZR_lt 0); lia). unfold scaled10. change 10 with (radix_val radix10). destruct (Z.leb_spec 0 s).
  - replace (IZR a / IZR b * bpow radix10 s)%R with (IZR (a * radix10 ^ s) / IZR b)%R; [apply divide_even_ok; exact Hb|]. rewrite mult_IZR, IZR_Zpower by lia. field. Lra.lra.
  - assert (P1 : 0 < radix10 ^ (- s)) by (apply (Zpower_gt_0 radix10); lia).
    replace (IZR a / IZR b * bpow radix10 s)%R with (IZR a / IZR (b * radix10 ^ (- s)))%R; [apply divide_even_ok; nia|].
    rewrite mult_IZR, IZR_Zpower, bpow_opp by lia. pose proof (bpow_gt_0 radix10 s). field. split; Lra.lra.
Qed.
Lemma digits_ok P a b D X : 1 <= P -> 0 < a -> 0 < b -> digits_of P a b = (D, X) ->
  10 ^ (P - 1) <= D < 10 ^ P /\ (Rabs (IZR D * bpow radix10 (X - P + 1) - IZR a / IZR b) <= / 2 * bpow radix10 (1 - P) * (IZR a / IZR b))%R.
Proof.
  intros HP Ha Hb. unfold digits_of. set (X0 := exponent10 a b). set (D0 := scaled10 a b (P - 1 - X0)).
  destruct (exponent10_ok a b Ha Hb) as [L U]. fold X0 in L, U. pose proof (scaled10_ok a b (P - 1 - X0) Hb) as S. fold D0 in S. set (v := (IZR a / IZR b)%R) in *.
  assert (POW : forall k, 0 <= k -> bpow radix10 k = IZR (10 ^ k)) by (intros k Hk; symmetry; apply (IZR_Zpower radix10 k Hk)).
  assert (L' : (IZR (10 ^ (P - 1)) <= v * bpow radix10 (P - 1 - X0))%R).
  { rewrite <- POW by lia. replace (P - 1) with (X0 + (P - 1 - X0)) at 1 by lia. rewrite bpow_plus. apply Rmult_le_compat_r; [apply bpow_ge_0|exact L]. }
  assert (U' : (v * bpow radix10 (P - 1 - X0) < IZR (10 ^ P))%R).
  { rewrite <- POW by lia. replace P with ((X0 + 1) + (P - 1 - X0)) at 2 by lia. rewrite bpow_plus. apply Rmult_lt_compat_r; [apply bpow_gt_0|exact U]. }
  apply Rabs_le_inv in S.
  assert (B1 : 10 ^ (P - 1) <= D0). { enough (10 ^ (P - 1) - 1 < D0) by lia. apply lt_IZR. rewrite minus_IZR. Lra.lra. }
  assert (B2 : D0 <= 10 ^ P). { enough (D0 < 10 ^ P + 1) by lia. apply lt_IZR. rewrite plus_IZR. Lra.lra. }
  assert (ERR : (Rabs (IZR D0 * bpow radix10 (X0 - P + 1) - v) <= / 2 * bpow radix10 (1 - P) * v)%R).
  { assert (EV : v = (v * bpow radix10 (P - 1 - X0) * bpow radix10 (X0 - P + 1))%R) by (rewrite Rmult_assoc, <- bpow_plus; replace (P - 1 - X0 + (X0 - P + 1)) with 0 by lia; cbn [bpow]; ring).
    rewrite EV at 1. rewrite <- Rmult_minus_distr_r, Rabs_mult, (Rabs_pos_eq (bpow _ _)) by apply bpow_ge_0.
    apply Rle_trans with (/ 2 * bpow radix10 (X0 - P + 1))%R; [apply Rmult_le_compat_r; [apply bpow_ge_0|apply Rabs_le; exact S]|].
    rewrite Rmult_assoc. apply Rmult_le_compat_l; [Lra.lra|]. replace (X0 - P + 1) with ((1 - P) + X0) by lia. rewrite bpow_plus. apply Rmult_le_compat_l; [apply bpow_ge_0|exact L]. }
  assert (P10 : 10 ^ P = 10 * 10 ^ (P - 1)) by (replace P with (Z.succ (P - 1)) at 1 by lia; apply Z.pow_succ_r; lia).
  assert (P0 : 0 < 10 ^ (P - 1)) by (apply Z.pow_pos_nonneg; lia).
  destruct (Z.eqb_spec D0 (10 ^ P)) as [E|NE]; intros [= <- <-]; (split; [lia|]); [|exact ERR].
  replace (IZR (10 ^ (P - 1)) * bpow radix10 (X0 + 1 - P + 1))%R with (IZR D0 * bpow radix10 (X0 - P + 1))%R; [exact ERR|].
  rewrite E, P10, mult_IZR. replace (X0 + 1 - P + 1) with (1 + (X0 - P + 1)) by lia. rewrite (bpow_plus radix10 1). change (bpow radix10 1) with 10%R. ring.
Qed.
Lemma fraction_ok m e : (IZR (numerator m e) / IZR (denominator e) = IZR m * bpow radix2 e)%R.
Proof.
  unfold numerator, denominator. change 2 with (radix_val radix2). destruct (Z.leb_spec 0 e).
  - rewrite mult_IZR, IZR_Zpower by lia. field.
  - rewrite IZR_Zpower, bpow_opp by lia. pose proof (bpow_gt_0 radix2 e). field. Lra.lra.
Qed.
Lemma denominator_pos e : 0 < denominator e.
Proof. unfold denominator. destruct (Z.leb_spec 0 e); [lia|]. apply Z.pow_pos_nonneg; lia. Qed.
Lemma numerator_pos m e : 0 < m -> 0 < numerator m e.
Proof. unfold numerator. intros. destruct (Z.leb_spec 0 e); [|lia]. apply Z.mul_pos_pos; [lia|]. apply Z.pow_pos_nonneg; lia. Qed.

(** ** The text. *)
Definition dec (l : list ascii) : Prop := Forall (fun c => is_dec c = true) l.
Lemma span_dec l c r : dec l -> is_dec c = false -> span is_dec (l ++ c :: r) = (l, c :: r).
Proof. intros. apply span_all; assumption. Qed.
Lemma span_dec_all l : dec l -> span is_dec l = (l, []).
Proof. intros. rewrite <- (app_nil_r l) at 1. apply span_all; [assumption|exact I]. Qed.
Lemma body_plain neg i : dec i -> i <> [] -> decimal_body neg i = Some (decimal_value neg (number 10 i) 0 0).
Proof. intros D NE. unfold decimal_body. rewrite (span_dec_all i D). rewrite app_nil_r. destruct i; [congruence|reflexivity]. Qed.
Lemma body_point neg i f : dec i -> dec f -> i <> [] -> decimal_body neg (i ++ "."%char :: f) = Some (decimal_value neg (number 10 (i ++ f)) (Z.of_nat (length f)) 0).
Proof.
  intros D Df NE. unfold decimal_body. rewrite (span_dec i "." f D eq_refl). cbn [Ascii.eqb Bool.eqb]. rewrite (span_dec_all f Df).
  destruct i; [congruence|reflexivity].
Qed.
Definition with_point (f : list ascii) : list ascii := match f with [] => [] | f => "."%char :: f end.
Lemma body_exponent neg i f (minus : bool) es : dec i -> dec f -> dec es -> i <> [] -> es <> [] ->
  decimal_body neg (i ++ with_point f ++ "e"%char :: (if minus then "-"%char else "+"%char) :: es) =
  Some (decimal_value neg (number 10 (i ++ f)) (Z.of_nat (length f)) (signed minus (number 10 es))).
Proof.
  intros D Df De NE NEs. unfold decimal_body.
  assert (S : forall i', span is_dec (i ++ i') = (i, i') \/ exists c r, i' = c :: r /\ is_dec c = true).
  { intros [|c r]; [left; rewrite app_nil_r; apply span_dec_all; exact D|]. destruct (is_dec c) eqn:E; [right; eauto|left; apply span_dec; assumption]. }
  destruct f as [|c f].
  - cbn [with_point Datatypes.app]. rewrite (span_dec i "e" _ D eq_refl). cbn [Ascii.eqb Bool.eqb]. rewrite app_nil_r. destruct i as [|d i]; [congruence|].
    destruct minus; cbn [sign Ascii.eqb Bool.eqb]; rewrite (span_dec_all es De); (destruct es; [congruence|reflexivity]).
  - cbn [with_point Datatypes.app]. rewrite (span_dec i "." _ D eq_refl). cbn [Ascii.eqb Bool.eqb].
    change (c :: f ++ "e"%char :: (if minus then "-"%char else "+"%char) :: es) with ((c :: f) ++ "e"%char :: (if minus then "-"%char else "+"%char) :: es).
    rewrite (span_dec (c :: f) "e" _ Df eq_refl). destruct i as [|d i]; [congruence|]. cbn [Ascii.eqb Bool.eqb Datatypes.app].
    destruct minus; cbn [sign Ascii.eqb Bool.eqb]; rewrite (span_dec_all es De); (destruct es; [congruence|reflexivity]).
Qed.
Lemma zeros_dec k : dec (zeros k).
Proof. unfold zeros. apply Forall_forall. intros c H. apply repeat_spec in H. subst. reflexivity. Qed.
Lemma zeros_number k : number 10 (zeros k) = 0.
Proof. unfold zeros. induction (Z.to_nat k) as [|n IH]; [reflexivity|]. cbn [repeat]. change ("0"%char :: repeat "0"%char n) with (["0"%char] ++ repeat "0"%char n). rewrite number_concat, IH. reflexivity. Qed.
Lemma zeros_length k : 0 <= k -> Z.of_nat (length (zeros k)) = k.
Proof. intros. unfold zeros. rewrite repeat_length. lia. Qed.
Lemma natural_dec v : dec (natural v).
Proof. apply dec_digits_dec. Qed.
Lemma natural_number v : 0 <= v -> number 10 (natural v) = v.
Proof.
  intros. unfold natural. apply dec_digits_number. split; [assumption|]. rewrite Z2Nat.id by lia. apply Z.lt_trans with (v + 1); [lia|]. apply (Zpower_gt_id radix10).
Qed.
Lemma natural_nonempty v : 0 <= v -> natural v <> [].
Proof. intros H. unfold natural. replace (Z.to_nat (v + 1)) with (Datatypes.S (Z.to_nat v)) by lia. cbn [dec_digits]. intros E. apply app_eq_nil in E. destruct E. discriminate. Qed.
Lemma two_digits_number v : 0 <= v -> number 10 ((if v <? 10 then ["0"%char] else []) ++ natural v) = v.
Proof. intros H. rewrite number_concat, (natural_number v H). destruct (v <? 10); reflexivity. Qed.
Lemma two_digits_dec v : dec ((if v <? 10 then ["0"%char] else []) ++ natural v).
Proof. apply Forall_app. split; [destruct (v <? 10); repeat constructor|apply natural_dec]. Qed.

Definition of_digits (neg : bool) (ds : list ascii) (X : Z) : R := (IZR (signed neg (number 10 ds)) * bpow radix10 (X + 1 - Z.of_nat (length ds)))%R.
Lemma signed_mult neg a b : signed neg (a * b) = signed neg a * b.
Proof. destruct neg; unfold signed; ring. Qed.
Lemma value_shift neg n k f e : 0 <= k -> decimal_value neg (n * 10 ^ k) f e = decimal_value neg n f (e + k).
Proof.
  intros. unfold decimal_value. rewrite signed_mult, mult_IZR. change 10 with (radix_val radix10). rewrite IZR_Zpower by assumption. rewrite Rmult_assoc, <- bpow_plus. do 2 f_equal. lia.
Qed.
Lemma positional_value neg point ds X : dec ds -> ds <> [] -> point = [] \/ point = [".";"0"]%char ->
  decimal_body neg (positional point ds X) = Some (of_digits neg ds X).
Proof.
  intros D NE HP. unfold positional, of_digits. destruct (Z.ltb_spec X 0).
  - change (["0"; "."]%char ++ zeros (- X - 1) ++ ds) with (["0"%char] ++ "."%char :: (zeros (- X - 1) ++ ds)).
    rewrite body_point; [|repeat constructor|apply Forall_app; split; [apply zeros_dec|exact D]|discriminate].
    rewrite !number_concat, zeros_number, app_length, Nat2Z.inj_add, zeros_length by lia. unfold decimal_value. f_equal.
    change (number 10 ["0"%char]) with 0. rewrite !Z.mul_0_l, !Z.add_0_l. f_equal. f_equal. lia.
  - set (n := Z.to_nat (X + 1)). pose proof (firstn_skipn n ds) as FS. destruct (skipn n ds) as [|c f] eqn:ES.
    + rewrite app_nil_r in FS. rewrite FS. assert (L : Z.of_nat (length ds) <= X + 1). { apply (f_equal (@length _)) in ES. rewrite skipn_length in ES. cbn in ES. unfold n in ES. lia. }
      assert (Dz : dec (ds ++ zeros (X + 1 - Z.of_nat (length ds)))) by (apply Forall_app; split; [exact D|apply zeros_dec]).
      assert (Nz : ds ++ zeros (X + 1 - Z.of_nat (length ds)) <> []) by (intros E; apply app_eq_nil in E; destruct E; congruence).
      assert (Vz : number 10 (ds ++ zeros (X + 1 - Z.of_nat (length ds))) = number 10 ds * 10 ^ (X + 1 - Z.of_nat (length ds))) by (rewrite number_concat, zeros_number, zeros_length by lia; ring).
      rewrite app_assoc. destruct HP as [-> | ->].
      * rewrite app_nil_r, (body_plain neg _ Dz Nz), Vz, value_shift by lia. unfold decimal_value. do 3 f_equal. lia.
      * change [".";"0"]%char with ("."%char :: ["0"%char]). rewrite (body_point neg _ ["0"%char] Dz ltac:(repeat constructor) Nz), number_concat, Vz. change (number 10 ["0"%char]) with 0.
        rewrite Z.add_0_r, !value_shift by (cbn; lia). unfold decimal_value. do 3 f_equal. cbn [length]. lia.
    + assert (L : X + 1 < Z.of_nat (length ds) /\ Z.of_nat (length (c :: f)) = Z.of_nat (length ds) - (X + 1)).
      { rewrite <- ES, skipn_length. apply (f_equal (@length _)) in ES. rewrite skipn_length in ES. cbn [length] in ES. unfold n in *. lia. }
      unfold zeros. replace (Z.to_nat (X + 1 - Z.of_nat (length ds))) with 0%nat by lia. cbn [repeat Datatypes.app].
      assert (D1 : dec (firstn n ds) /\ dec (c :: f)) by (apply Forall_app; rewrite FS; exact D).
      rewrite body_point; [|apply D1|apply D1|]; [|intros E; apply (f_equal (@length _)) in E; rewrite firstn_length in E; cbn in E; unfold n in E; lia].
      rewrite FS. unfold decimal_value. do 3 f_equal. lia.
Qed.
Lemma scientific_value neg ds X : dec ds -> ds <> [] -> decimal_body neg (scientific ds X) = Some (of_digits neg ds X).
Proof.
  intros D NE. destruct ds as [|c f]; [congruence|]. inversion D as [|? ? Dc Df]; subst. unfold scientific, of_digits. cbn [firstn skipn].
  pose proof (body_exponent neg [c] f (X <? 0) ((if Z.abs X <? 10 then ["0"%char] else []) ++ natural (Z.abs X)) ltac:(constructor; [exact Dc|constructor]) Df (two_digits_dec _) ltac:(discriminate)) as B.
  assert (WP : match f with [] => [] | a :: l => "."%char :: a :: l end = with_point f) by (destruct f; reflexivity). rewrite WP.
  rewrite B; [|intros E; apply app_eq_nil in E; destruct E as [_ E]; revert E; apply natural_nonempty; lia].
  rewrite two_digits_number by lia. unfold decimal_value. cbn [Datatypes.app length]. f_equal. f_equal. f_equal. unfold signed. destruct (Z.ltb_spec X 0); lia.
Qed.
Lemma strip_split l : exists k, l = strip l ++ repeat "0"%char k.
Proof.
  induction l as [|c l (k & IH)]; [exists 0%nat; reflexivity|]. cbn [strip]. destruct (strip l) as [|d r] eqn:E.
  - destruct (Ascii.eqb_spec c "0") as [->|]; [exists (Datatypes.S k); rewrite IH; reflexivity|exists k; rewrite IH; reflexivity].
  - exists k. rewrite IH at 1. reflexivity.
Qed.
Lemma dec_digits_length n : forall v, 10 ^ (Z.of_nat n) <= v < 10 ^ (Z.of_nat n + 1) -> length (dec_digits (Datatypes.S n) v) = Datatypes.S n.
Proof.
  induction n as [|n IH]; intros v H.
  - cbn [dec_digits]. change (10 ^ (Z.of_nat 0 + 1)) with 10 in H. destruct (Z.ltb_spec v 10); [reflexivity|lia].
  - change (dec_digits (Datatypes.S (Datatypes.S n)) v) with ((if v <? 10 then [] else dec_digits (Datatypes.S n) (v / 10)) ++ [hex_char (v mod 10)]).
    assert (P1 : 10 ^ Z.of_nat (Datatypes.S n) = 10 * 10 ^ Z.of_nat n) by (rewrite Nat2Z.inj_succ; apply Z.pow_succ_r; lia).
    assert (P2 : 10 ^ (Z.of_nat (Datatypes.S n) + 1) = 10 * 10 ^ (Z.of_nat n + 1)) by (rewrite Nat2Z.inj_succ; replace (Z.succ (Z.of_nat n) + 1) with (Z.succ (Z.of_nat n + 1)) by lia; apply Z.pow_succ_r; lia).
    assert (P0 : 0 < 10 ^ Z.of_nat n) by (apply Z.pow_pos_nonneg; lia). rewrite P1, P2 in H.
    destruct (Z.ltb_spec v 10); [lia|]. rewrite app_length, IH; [cbn; lia|]. split; [apply Z.div_le_lower_bound; lia|apply Z.div_lt_upper_bound; lia].
Qed.
Lemma stripped_value neg P D X : 1 <= P -> 10 ^ (P - 1) <= D < 10 ^ P ->
  let ds := strip (dec_digits (Z.to_nat P) D) in dec ds /\ ds <> [] /\ of_digits neg ds X = decimal_float neg D P X.
Proof.
  intros HP HD ds. set (n := Z.to_nat (P - 1)). assert (EN : Z.to_nat P = Datatypes.S n) by (unfold n; lia).
  assert (PN : Z.of_nat n = P - 1) by (unfold n; lia). assert (P0 : 0 < 10 ^ (P - 1)) by (apply Z.pow_pos_nonneg; lia).
  destruct (strip_split (dec_digits (Z.to_nat P) D)) as (k & E). fold ds in E.
  assert (DD : dec (dec_digits (Z.to_nat P) D)) by apply dec_digits_dec. assert (Dds : dec ds) by (rewrite E in DD; apply Forall_app in DD; apply DD).
  assert (LEN : length (dec_digits (Z.to_nat P) D) = Z.to_nat P) by (rewrite EN; apply dec_digits_length; rewrite PN; replace (P - 1 + 1) with P by lia; exact HD).
  assert (NUM : number 10 (dec_digits (Z.to_nat P) D) = D) by (apply dec_digits_number; rewrite Z2Nat.id by lia; lia).
  assert (LK : Z.of_nat (length ds) + Z.of_nat k = P) by (rewrite E, app_length, repeat_length in LEN; lia).
  assert (NK : D = number 10 ds * 10 ^ Z.of_nat k).
  { rewrite <- NUM. rewrite E at 1. rewrite number_concat, repeat_length. replace (repeat "0"%char k) with (zeros (Z.of_nat k)) by (unfold zeros; rewrite Nat2Z.id; reflexivity). rewrite zeros_number. ring. }
  split; [exact Dds|]. split.
  - intros E0. rewrite E0 in NK. change (number 10 []) with 0 in NK. lia.
  - unfold of_digits, decimal_float. rewrite NK at 1. rewrite signed_mult, mult_IZR. change 10 with (radix_val radix10) at 3. rewrite IZR_Zpower by lia. rewrite Rmult_assoc, <- bpow_plus. do 2 f_equal. lia.
Qed.

(** ** The whole texts. *)
Definition first_digit (l : list ascii) : Prop := exists c r, l = c :: r /\ is_dec c = true.
Lemma dec_not_sign c : is_dec c = true -> Ascii.eqb c "-" = false /\ Ascii.eqb c "+" = false.
Proof. intros H. split; (destruct (Ascii.eqb_spec c "-"); destruct (Ascii.eqb_spec c "+"); subst; try reflexivity; discriminate H). Qed.
Lemma exactly_signed neg l : first_digit l -> exactly (minus neg ++ l) = decimal_body neg l.
Proof.
  intros (c & r & -> & D). destruct neg; unfold exactly; cbn [minus Datatypes.app sign Ascii.eqb Bool.eqb]; [reflexivity|].
  destruct (dec_not_sign c D) as [-> ->]. reflexivity.
Qed.
Lemma positional_first point ds X : dec ds -> ds <> [] -> first_digit (positional point ds X).
Proof.
  intros D NE. unfold positional, first_digit. destruct (Z.ltb_spec X 0); [cbn; do 2 eexists; split; reflexivity|].
  destruct ds as [|c r]; [congruence|]. inversion D; subst. replace (Z.to_nat (X + 1)) with (Datatypes.S (Z.to_nat X)) by lia. cbn [firstn Datatypes.app]. do 2 eexists. split; [reflexivity|assumption].
Qed.
Lemma scientific_first ds X : dec ds -> ds <> [] -> first_digit (scientific ds X).
Proof. intros D NE. destruct ds as [|c r]; [congruence|]. inversion D; subst. unfold scientific. cbn [firstn Datatypes.app]. do 2 eexists. split; [reflexivity|assumption]. Qed.
Lemma decimal_float_signed neg D P X : decimal_float neg D P X = (IZR (signed neg 1) * (IZR D * bpow radix10 (X - P + 1)))%R.
Proof. unfold decimal_float. destruct neg; unfold signed; rewrite ?opp_IZR; ring. Qed.
Lemma dyadic_signed neg m e : dyadic neg m e = (IZR (signed neg 1) * (IZR m * bpow radix2 e))%R.
Proof. unfold dyadic. destruct neg; unfold signed; rewrite ?opp_IZR; ring. Qed.
Lemma signed_abs neg x : Rabs (IZR (signed neg 1) * x) = Rabs x.
Proof. destruct neg; cbn [signed]; [change (IZR (- (1))) with (-1)%R; replace (-1 * x)%R with (- x)%R by ring; apply Rabs_Ropp|f_equal; ring]. Qed.
Lemma decimal_close neg P m e D X : 1 <= P -> 0 < m -> digits_of P (numerator m e) (denominator e) = (D, X) ->
  10 ^ (P - 1) <= D < 10 ^ P /\ (Rabs (decimal_float neg D P X - dyadic neg m e) <= / 2 * bpow radix10 (1 - P) * Rabs (dyadic neg m e))%R.
Proof.
  intros HP Hm E. destruct (digits_ok P _ _ D X HP (numerator_pos m e Hm) (denominator_pos e) E) as [B R]. rewrite fraction_ok in R. split; [exact B|].
  rewrite decimal_float_signed, dyadic_signed, <- Rmult_minus_distr_l, !signed_abs, (Rabs_pos_eq (IZR m * bpow radix2 e)); [exact R|].
  apply Rmult_le_pos; [apply (IZR_le 0); lia|apply bpow_ge_0].
Qed.
Lemma printf_value P neg m e : 1 <= P -> 0 <= m ->
  exists y, exactly (printf_g P neg m e) = Some y /\ (Rabs (y - dyadic neg m e) <= / 2 * bpow radix10 (1 - P) * Rabs (dyadic neg m e))%R.
Proof.
  intros HP Hm. unfold printf_g. destruct (Z.eqb_spec m 0) as [->|NZ].
  - exists (decimal_value neg 0 0 0). split; [destruct neg; reflexivity|]. unfold decimal_value, dyadic. replace (signed neg 0) with 0 by (destruct neg; reflexivity).
    rewrite !Rmult_0_l, Rminus_0_r, Rabs_R0. Lra.lra.
  - destruct (digits_of P (numerator m e) (denominator e)) as [D X] eqn:E. destruct (decimal_close neg P m e D X HP ltac:(lia) E) as [B R].
    destruct (stripped_value neg P D X HP B) as (S1 & S2 & S3). exists (decimal_float neg D P X). split; [|exact R]. rewrite <- S3.
    destruct ((-4 <=? X) && (X <? P)).
    + rewrite exactly_signed by (apply positional_first; assumption). apply positional_value; auto.
    + rewrite exactly_signed by (apply scientific_first; assumption). apply scientific_value; auto.
Qed.
Lemma existsb_in (f : ascii -> bool) l c : In c l -> f c = true -> existsb f l = true.
Proof. intros. apply existsb_exists. eauto. Qed.
Lemma positional_pointed ds X : ds <> [] -> In "."%char (positional [".";"0"]%char ds X).
Proof.
  intros NE. unfold positional. destruct (X <? 0); [right; left; reflexivity|]. apply in_or_app. right. apply in_or_app. right. destruct (skipn _ ds); left; reflexivity.
Qed.
Lemma scientific_e ds X : In "e"%char (scientific ds X).
Proof. unfold scientific. apply in_or_app. right. apply in_or_app. right. left. reflexivity. Qed.
Lemma c_exactly_signed neg l : first_digit l -> existsb (fun c => Ascii.eqb c "." || Ascii.eqb c "e") l = true -> c_exactly (minus neg ++ l) = decimal_body neg l.
Proof.
  intros (c & r & -> & D) E. destruct (dec_not_sign c D) as [N _]. unfold c_exactly. rewrite existsb_app, E, orb_true_r.
  destruct neg; cbn [minus Datatypes.app]; [reflexivity|]. rewrite N. reflexivity.
Qed.
Lemma repr_value neg D P X : 1 <= P -> 10 ^ (P - 1) <= D < 10 ^ P ->
  let l := repr_of neg (strip (dec_digits (Z.to_nat P) D)) X in c_exactly l = Some (decimal_float neg D P X) /\ exactly l = Some (decimal_float neg D P X).
Proof.
  intros HP B l. destruct (stripped_value neg P D X HP B) as (S1 & S2 & S3). subst l. unfold repr_of. rewrite <- S3. set (ds := strip _) in *.
  destruct ((-4 <=? X) && (X <? 16)).
  - pose proof (positional_first [".";"0"]%char ds X S1 S2) as F. rewrite exactly_signed, c_exactly_signed; [|exact F|apply (existsb_in _ _ "."%char); [apply positional_pointed; exact S2|reflexivity]|exact F].
    rewrite positional_value by auto. auto.
  - pose proof (scientific_first ds X S1 S2) as F. rewrite exactly_signed, c_exactly_signed; [|exact F|apply (existsb_in _ _ "e"%char); [apply scientific_e|reflexivity]|exact F].
    rewrite scientific_value by auto. auto.
Qed.
Lemma tens_17 : (bpow radix10 (-16) < bpow radix2 (-53))%R.
Proof.
  change (bpow radix10 (- (16)) < bpow radix2 (- (53)))%R. rewrite !bpow_opp. apply Rinv_lt_contravar; [apply Rmult_lt_0_compat; apply bpow_gt_0|]. rewrite <- !IZR_Zpower by lia. apply IZR_lt. reflexivity.
Qed.
Lemma close_64 x y : in_binary64 x -> (Rabs (y - x) <= / 2 * bpow radix10 (-16) * Rabs x)%R -> to_binary64 y = x.
Proof.
  intros F C. apply (@recover 53 (-1074) eq_refl); [exact F|]. destruct (Req_dec x 0) as [->|NX].
  - right. rewrite Rabs_R0, Rmult_0_r, Rminus_0_r in C. pose proof (Rabs_pos y). destruct (Req_dec y 0) as [E|NE]; [exact E|]. apply Rabs_no_R0 in NE. Lra.lra.
  - left. pose proof tens_17. pose proof (Rabs_pos_lt x NX). apply Rle_lt_trans with (bpow radix10 (-16) * Rabs x)%R; [Lra.lra|]. apply Rmult_lt_compat_r; assumption.
Qed.
Lemma least_FLT prec emin x : 0 < prec -> generic_format radix2 (FLT_exp emin prec) x -> x <> 0%R -> (bpow radix2 emin <= Rabs x)%R.
Proof.
  intros Hp F NX. apply FLT_format_generic in F; [|exact Hp]. destruct F as [[m e] E B L]. cbn [Fnum Fexp] in *. unfold F2R in E. cbn [Fnum Fexp] in E.
  rewrite E, Rabs_mult, (Rabs_pos_eq (bpow _ _)) by apply bpow_ge_0. rewrite <- abs_IZR. apply Rle_trans with (bpow radix2 e); [apply bpow_le; exact L|].
  rewrite <- (Rmult_1_l (bpow radix2 e)) at 1. apply Rmult_le_compat_r; [apply bpow_ge_0|]. apply (IZR_le 1). enough (m <> 0) by lia. intros ->. apply NX. rewrite E. apply Rmult_0_l.
Qed.
Lemma close_32 x y : in_binary32 x -> (Rabs (y - x) <= / 2 * bpow radix10 (-8) * Rabs x)%R -> to_binary32 (to_binary64 y) = x.
Proof.
  intros F C. destruct (Req_dec x 0) as [->|NX].
  - assert (EY : y = 0%R) by (rewrite Rabs_R0, Rmult_0_r, Rminus_0_r in C; pose proof (Rabs_pos y); destruct (Req_dec y 0) as [E|NE]; [exact E|]; apply Rabs_no_R0 in NE; Lra.lra).
    subst. unfold to_binary64. rewrite (@nearest_0 53 (-1074)). apply (@nearest_0 24 (-149)).
  - apply (@recover 24 (-149) eq_refl); [exact F|]. left. pose proof (@nearest_err 53 (-1074) eq_refl y) as N. fold (to_binary64 y) in N.
    rewrite unit_half, least_half in N. pose proof (least_FLT 24 (-149) x eq_refl F NX) as L. pose proof (Rabs_pos_lt x NX) as PX. set (z := to_binary64 y) in *.
    change (- (53))%Z with (-53)%Z in N. change (-1074 - 1)%Z with (-1075)%Z in N.
    assert (T1 : (Rabs (z - x) <= Rabs (z - y) + Rabs (y - x))%R) by (replace (z - x)%R with ((z - y) + (y - x))%R by ring; apply Rabs_triang).
    assert (T2 : (Rabs y <= Rabs (y - x) + Rabs x)%R) by (replace y with ((y - x) + x)%R at 1 by ring; apply Rabs_triang).
    assert (E8 : bpow radix10 (-8) = (/ 100000000)%R) by reflexivity.
    assert (E24 : bpow radix2 (-24) = (/ 16777216)%R) by reflexivity.
    assert (E53 : (0 <= bpow radix2 (-53) <= / 16777216 * / 16777216)%R).
    { split; [apply bpow_ge_0|]. apply Rle_trans with (bpow radix2 (-48)); [apply bpow_le; lia|]. change (-48) with (-24 + -24). rewrite bpow_plus, E24. apply Rle_refl. }
    assert (E75 : (bpow radix2 (-1075) <= / 16777216 * / 16777216 * Rabs x)%R).
    { apply Rle_trans with (bpow radix2 (-48) * bpow radix2 (-149))%R; [rewrite <- bpow_plus; apply bpow_le; lia|].
      apply Rmult_le_compat; try apply bpow_ge_0; [|exact L]. change (-48) with (-24 + -24). rewrite bpow_plus, E24. apply Rle_refl. }
    change (- (24)) with (-24). rewrite E24. rewrite E8 in C.
    assert (N2 : (bpow radix2 (-53) * Rabs y <= / 16777216 * / 16777216 * Rabs y)%R) by (apply Rmult_le_compat_r; [apply Rabs_pos|apply E53]).
    Lra.lra.
Qed.
