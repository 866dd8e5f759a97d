(** * The two floating-point formats of the generated code (C78).
    [data_type] is float or double (generator/neural_network.py 74-75, 251-323;
    layers and macros print them as C's [float] and [double]): IEEE 754 binary32 and
    binary64, round to nearest even, as specified by Flocq, without the bound on the
    greatest exponent (no overflow).  The C library's functions: exp, log and tanh
    rounded correctly (exp: any relative error is accepted by [format]). *)
From Coq Require Import ZArith Reals Lra Lia.
From Flocq Require Import Core Relative.
From Verif Require Import Rounding.
Open Scope R_scope.

Section Format.
  Context (prec emin : Z) (Hp : (0 < prec)%Z) (H1 : (emin + prec <= 1)%Z).
  Local Instance prec_pos : Prec_gt_0 prec := Hp.
  Definition nearest (x : R) : R := round radix2 (FLT_exp emin prec) ZnearestE x.
  Definition unit_roundoff : R := / 2 * bpow radix2 (- prec + 1).
  Definition least : R := / 2 * bpow radix2 emin.
  Lemma half_bpow_pos e : 0 <= / 2 * bpow radix2 e.
  Proof. pose proof (bpow_gt_0 radix2 e). lra. Qed.
  Lemma nearest_format x : generic_format radix2 (FLT_exp emin prec) (nearest x).
  Proof. apply generic_format_round; typeclasses eauto. Qed.
  Lemma nearest_idem x : nearest (nearest x) = nearest x.
  Proof. apply round_generic; [typeclasses eauto|apply nearest_format]. Qed.
  Lemma nearest_0 : nearest 0 = 0.
  Proof. apply round_0. typeclasses eauto. Qed.
  Lemma nearest_1 : nearest 1 = 1.
  Proof. apply round_generic; [typeclasses eauto|]. apply (generic_format_bpow radix2 (FLT_exp emin prec) 0). unfold FLT_exp. lia. Qed.
  Lemma nearest_mono x y : x <= y -> nearest x <= nearest y.
  Proof. intros. apply round_le; try typeclasses eauto. assumption. Qed.
  Lemma nearest_err x : Rabs (nearest x - x) <= unit_roundoff * Rabs x + least.
  Proof.
    destruct (error_N_FLT radix2 emin prec Hp (fun x => negb (Z.even x)) x) as (d & t & Hd & Ht & _ & E). unfold nearest. rewrite E.
    replace (x * (1 + d) + t - x) with (d * x + t) by ring. eapply Rle_trans; [apply Rabs_triang|]. rewrite Rabs_mult.
    apply Rplus_le_compat; [|exact Ht]. apply Rmult_le_compat_r; [apply Rabs_pos|exact Hd].
  Qed.
  Lemma nearest_exp x : Rabs (nearest (exp x) - exp x) <= unit_roundoff * exp x + least.
  Proof. rewrite <- (Rabs_pos_eq (exp x)) at 3 by (left; apply exp_pos). apply nearest_err. Qed.
  Definition ieee : format :=
    mkFormat nearest unit_roundoff least exp unit_roundoff ln tanh
      (half_bpow_pos _) (half_bpow_pos _) (half_bpow_pos _) nearest_0 nearest_1 nearest_idem nearest_mono
      (round_NE_opp radix2 (FLT_exp emin prec)) nearest_err (fun x => Rlt_le _ _ (exp_pos x)) nearest_exp.
End Format.
(** 24 and 53 bits of precision, least positive number 2^-149 and 2^-1074. *)
Definition binary32 : format := ieee 24 (-149) eq_refl ltac:(discriminate).
Definition binary64 : format := ieee 53 (-1074) eq_refl ltac:(discriminate).
Lemma unit_half prec : unit_roundoff prec = bpow radix2 (- prec).
Proof. unfold unit_roundoff. rewrite bpow_plus. change (bpow radix2 1) with 2. field. Qed.
Lemma least_half emin : least emin = bpow radix2 (emin - 1).
Proof. unfold least. replace emin with ((emin - 1) + 1)%Z at 1 by ring. rewrite bpow_plus. change (bpow radix2 1) with 2. field. Qed.
Lemma binary64_u : uu binary64 = bpow radix2 (-53).
Proof. exact (unit_half 53). Qed.
Lemma binary32_u : uu binary32 = bpow radix2 (-24).
Proof. exact (unit_half 24). Qed.
Lemma binary64_eta : eta binary64 = bpow radix2 (-1075).
Proof. exact (least_half (-1074)). Qed.
Lemma binary32_eta : eta binary32 = bpow radix2 (-150).
Proof. exact (least_half (-149)). Qed.
