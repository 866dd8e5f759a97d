(** * Proofs for Rounding.v. *)
From Coq Require Import ZArith List Lia Bool QArith Reals Lra Eqdep_dec.
Import ListNotations.
From Verif Require Import CMem Tensor Num RealInst Activation Movement MovementProofs Conv Pooling Pad Reduce Resize Graph Net.
From Verif Require Broadcast BroadcastProofs.
From Verif Require Import PropertiesPooling LayerKinds Rounding.
Open Scope R_scope.
Open Scope list_scope.

Section Proofs.
  Context (F : format).
  Notation u := (uu F). Notation e := (eta F).
  Notation FN := (fnum F). Notation BN := (bnum F).

  Lemma float_eq (a b : float F) : val a = val b -> a = b.
  Proof.
    destruct a as (x & Hx), b as (y & Hy). cbn. intros ->. f_equal. apply UIP_dec. intros r s. destruct (Req_EM_T r s); auto.
  Qed.
  Lemma val_fl x : val (fl F x) = rnd F x. Proof. reflexivity. Qed.
  Lemma val_rnd (a : float F) : rnd F (val a) = val a. Proof. exact (proj2_sig a). Qed.
  (** The laws of the arithmetic used by the convolutions. *)
  Lemma float_zero_product : zero_product_law FN.
  Proof.
    intros s y. apply float_eq. cbn [nadd nmul n0 fnum]. rewrite !val_fl, rnd_0, Rmult_0_l, rnd_0, Rplus_0_r. apply val_rnd.
  Qed.
  Lemma float_mul_comm : mul_comm_law FN.
  Proof. intros x y. apply float_eq. cbn [nmul fnum]. rewrite !val_fl, Rmult_comm. reflexivity. Qed.

  (** ** Operations. *)
  Lemma rounded_ok v' v M E : Rabs v <= M -> Rabs (v' - v) <= E -> about (fl F v') v (rounded F M E).
  Proof.
    intros HM HE. cbn [about rounded]. split; [exact HM|]. rewrite val_fl. pose proof (rnd_err F v') as HR. pose proof (uu_pos F).
    assert (A : Rabs v' <= M + E) by (replace v' with (v + (v' - v)) by ring; eapply Rle_trans; [apply Rabs_triang|lra]).
    replace (rnd F v' - v) with ((rnd F v' - v') + (v' - v)) by ring. eapply Rle_trans; [apply Rabs_triang|].
    assert (u * Rabs v' <= u * (M + E)) by (apply Rmult_le_compat_l; assumption). lra.
  Qed.
  Lemma about_within a b c : c <> Unknown -> @about F a b c -> Rabs b <= magnitude c /\ Rabs (val a - b) <= error c.
  Proof. destruct c; cbn; [intros _ (-> & ->); lra|auto|congruence]. Qed.
  Lemma lift_ok known within opF opR :
    (forall a b, known a b = fun a' b' => Known (rnd F (opF a a')) (opR b b')) ->
    (forall (a' : float F) b' (a : float F) b M E M' E', Rabs b <= M -> Rabs (val a - b) <= E -> Rabs b' <= M' -> Rabs (val a' - b') <= E' -> about (fl F (opF (val a) (val a'))) (opR b b') (within M E M' E')) ->
    forall (a : float F) b c (a' : float F) b' c', @about F a b c -> about a' b' c' -> about (fl F (opF (val a) (val a'))) (opR b b') (lift known within c c').
  Proof.
    intros K W a b c a' b' c' H H'. destruct c; [| |exact I].
    - destruct c'; [| |exact I].
      + cbn [lift]. rewrite K. destruct H as (-> & ->), H' as (-> & ->). split; reflexivity.
      + cbn [lift]. apply (about_within a b) in H; [|discriminate]. apply (about_within a' b') in H'; [|discriminate]. apply W; tauto.
    - destruct c'; [| |exact I]; cbn [lift]; apply (about_within a b) in H; try discriminate; apply (about_within a' b') in H'; try discriminate; apply W; tauto.
  Qed.
  Lemma about_add a b c a' b' c' : @about F a b c -> about a' b' c' -> about (nadd FN a a') (nadd Rnum b b') (nadd BN c c').
  Proof.
    apply (lift_ok _ _ Rplus Rplus); [reflexivity|]. clear. intros a' b' a b M E M' E' H1 H2 H3 H4. apply rounded_ok.
    - eapply Rle_trans; [apply Rabs_triang|lra].
    - replace (val a + val a' - (b + b')) with ((val a - b) + (val a' - b')) by ring. eapply Rle_trans; [apply Rabs_triang|lra].
  Qed.
  Lemma about_sub a b c a' b' c' : @about F a b c -> about a' b' c' -> about (nsub FN a a') (nsub Rnum b b') (nsub BN c c').
  Proof.
    apply (lift_ok _ _ Rminus Rminus); [reflexivity|]. clear. intros a' b' a b M E M' E' H1 H2 H3 H4. apply rounded_ok.
    - unfold Rminus. eapply Rle_trans; [apply Rabs_triang|]. rewrite Rabs_Ropp. lra.
    - replace (val a - val a' - (b - b')) with ((val a - b) + - (val a' - b')) by ring. eapply Rle_trans; [apply Rabs_triang|]. rewrite Rabs_Ropp. lra.
  Qed.
  Lemma mult_le a b M M' : Rabs a <= M -> Rabs b <= M' -> Rabs (a * b) <= M * M'.
  Proof. intros H1 H2. rewrite Rabs_mult. apply Rmult_le_compat; auto using Rabs_pos. Qed.
  Lemma about_mul a b c a' b' c' : @about F a b c -> about a' b' c' -> about (nmul FN a a') (nmul Rnum b b') (nmul BN c c').
  Proof.
    apply (lift_ok _ _ Rmult Rmult); [reflexivity|]. clear. intros a' b' a b M E M' E' H1 H2 H3 H4. apply rounded_ok.
    - apply mult_le; assumption.
    - replace (val a * val a' - b * b') with (b * (val a' - b') + b' * (val a - b) + (val a - b) * (val a' - b')) by ring.
      eapply Rle_trans; [apply Rabs_triang|]. apply Rplus_le_compat; [|apply mult_le; assumption].
      eapply Rle_trans; [apply Rabs_triang|]. apply Rplus_le_compat; apply mult_le; assumption.
  Qed.
  Lemma about_div a b c a' b' c' : @about F a b c -> about a' b' c' -> about (ndiv FN a a') (ndiv Rnum b b') (ndiv BN c c').
  Proof.
    cbn [ndiv fnum Rnum bnum]. intros H H'. destruct c, c'; try exact I.
    - destruct H as (-> & ->), H' as (-> & ->). split; reflexivity.
    - destruct H as (H1 & H2), H' as (-> & ->). cbn [bdiv]. unfold Rdiv. apply rounded_ok.
      + apply mult_le; [assumption|apply Rle_refl].
      + replace (val a * / a0 - b * / b0) with ((val a - b) * / a0 + b * (/ a0 - / b0)) by ring.
        eapply Rle_trans; [apply Rabs_triang|]. apply Rplus_le_compat; apply mult_le; try assumption; apply Rle_refl.
  Qed.
  Lemma about_sqrt a b c : @about F a b c -> about (nsqrt FN a) (nsqrt Rnum b) (nsqrt BN c).
  Proof. cbn [nsqrt fnum Rnum bnum]. destruct c; try (intros; exact I). intros (-> & ->). split; reflexivity. Qed.
  Lemma about_ofZ z : about (nofZ FN z) (nofZ Rnum z) (nofZ BN z).
  Proof. split; reflexivity. Qed.
  Lemma about_0 : about (n0 FN) (n0 Rnum) (n0 BN).
  Proof. split; [apply rnd_0|reflexivity]. Qed.
  Lemma about_1 : about (n1 FN) (n1 Rnum) (n1 BN).
  Proof. split; [apply rnd_1|reflexivity]. Qed.
  Lemma about_known a : about a (val a) (known F a).
  Proof. split; reflexivity. Qed.

  (** ** Greatest and least. *)
  Lemma max_val (a b : float F) : val (np_maximum FN a b) = Rmax (val a) (val b).
  Proof. unfold np_maximum. cbn [nlt fnum]. unfold Rltb. destruct (Rlt_dec (val a) (val b)); [rewrite Rmax_right; lra|rewrite Rmax_left; lra]. Qed.
  Lemma max_real a b : np_maximum Rnum a b = Rmax a b.
  Proof. unfold np_maximum. cbn [nlt Rnum]. unfold Rltb. destruct (Rlt_dec a b); [rewrite Rmax_right; lra|rewrite Rmax_left; lra]. Qed.
  Lemma min_val (a b : float F) : val (np_minimum FN a b) = Rmin (val a) (val b).
  Proof. unfold np_minimum. cbn [nlt fnum]. unfold Rltb. destruct (Rlt_dec (val b) (val a)); [rewrite Rmin_right; lra|rewrite Rmin_left; lra]. Qed.
  Lemma min_real a b : np_minimum Rnum a b = Rmin a b.
  Proof. unfold np_minimum. cbn [nlt Rnum]. unfold Rltb. destruct (Rlt_dec b a); [rewrite Rmin_right; lra|rewrite Rmin_left; lra]. Qed.
  Lemma abs_split x M : Rabs x <= M -> - M <= x <= M.
  Proof. intros H. pose proof (Rle_abs x). pose proof (Rle_abs (- x)). rewrite Rabs_Ropp in *. lra. Qed.
  Lemma max_close a b a' b' E E' : Rabs (a - b) <= E -> Rabs (a' - b') <= E' -> Rabs (Rmax a a' - Rmax b b') <= Rmax E E'.
  Proof.
    intros H1 H2. apply abs_split in H1. apply abs_split in H2. apply Rabs_le. unfold Rmax.
    destruct (Rle_dec a a'), (Rle_dec b b'), (Rle_dec E E'); lra.
  Qed.
  Lemma min_close a b a' b' E E' : Rabs (a - b) <= E -> Rabs (a' - b') <= E' -> Rabs (Rmin a a' - Rmin b b') <= Rmax E E'.
  Proof.
    intros H1 H2. apply abs_split in H1. apply abs_split in H2. apply Rabs_le. unfold Rmax, Rmin.
    destruct (Rle_dec a a'), (Rle_dec b b'), (Rle_dec E E'); lra.
  Qed.
  Lemma about_max a b c a' b' c' : @about F a b c -> about a' b' c' -> about (np_maximum FN a a') (np_maximum Rnum b b') (bmax c c').
  Proof.
    intros H H'. rewrite max_real. destruct c as [x y|M E|]; [| |exact I]; (destruct c' as [x' y'|M' E'|]; [| |exact I]); cbn [bmax lift];
      try (destruct H as (<- & ->), H' as (<- & ->); split; [apply max_val|reflexivity]);
      apply (about_within a b) in H; try discriminate; apply (about_within a' b') in H'; try discriminate; cbn [magnitude error] in *; destruct H as (H1 & H2), H' as (H3 & H4);
      (split; [|rewrite max_val; apply max_close; assumption]); apply abs_split in H1; apply abs_split in H3; apply Rabs_le; unfold Rmax;
      destruct (Rle_dec _ _); destruct (Rle_dec _ _); lra.
  Qed.
  Lemma about_min a b c a' b' c' : @about F a b c -> about a' b' c' -> about (np_minimum FN a a') (np_minimum Rnum b b') (bmin c c').
  Proof.
    intros H H'. rewrite min_real. destruct c as [x y|M E|]; [| |exact I]; (destruct c' as [x' y'|M' E'|]; [| |exact I]); cbn [bmin lift];
      try (destruct H as (<- & ->), H' as (<- & ->); split; [apply min_val|reflexivity]);
      apply (about_within a b) in H; try discriminate; apply (about_within a' b') in H'; try discriminate; cbn [magnitude error] in *; destruct H as (H1 & H2), H' as (H3 & H4);
      (split; [|rewrite min_val; apply min_close; assumption]); apply abs_split in H1; apply abs_split in H3; apply Rabs_le; unfold Rmax, Rmin;
      destruct (Rle_dec _ _); destruct (Rle_dec _ _); lra.
  Qed.

  (** ** Activations. *)
  Definition sigma (x : R) : R := exp x / (1 + exp x).
  Lemma sigma_compute x : compute Rnum Sigmoid x = sigma x.
  Proof.
    cbn [compute nlt n0 n1 nexp nadd ndiv Rnum]. unfold nopp. cbn [nsub n0 Rnum]. unfold sigma. destruct (Rltb x 0); [reflexivity|].
    replace (0 - x) with (- x) by ring. rewrite exp_Ropp. pose proof (exp_pos x). assert (X : 1 / (1 + / exp x) = exp x / (1 + exp x)) by (field; lra). exact X.
  Qed.
  Lemma sigma_range x : 0 <= sigma x <= 1.
  Proof.
    unfold sigma. pose proof (exp_pos x). split.
    - apply Rle_mult_inv_pos; lra.
    - apply (Rmult_le_reg_r (1 + exp x)); [lra|]. unfold Rdiv. rewrite Rmult_assoc, Rinv_l by lra. lra.
  Qed.
  Lemma sigma_le x y : x <= y -> sigma y - sigma x <= y - x.
  Proof.
    intros H. unfold sigma. pose proof (exp_pos x) as Px. pose proof (exp_pos y) as Py.
    assert (EX : exp x >= exp y * (1 + (x - y))).
    { replace x with (y + (x - y)) at 1 by ring. rewrite exp_plus. apply Rle_ge, Rmult_le_compat_l; [lra|]. apply exp_ineq1_le. }
    replace (exp y / (1 + exp y) - exp x / (1 + exp x)) with ((exp y - exp x) / ((1 + exp y) * (1 + exp x))) by (field; lra).
    apply (Rmult_le_reg_r ((1 + exp y) * (1 + exp x))); [apply Rmult_lt_0_compat; lra|]. unfold Rdiv. rewrite Rmult_assoc, Rinv_l by (apply Rmult_integral_contrapositive; lra).
    rewrite Rmult_1_r. apply (Rle_trans _ (exp y * (y - x))); [lra|].
    apply (Rle_trans _ ((y - x) * (1 + exp y))); [nra|]. rewrite <- Rmult_assoc. rewrite <- (Rmult_1_r ((y - x) * (1 + exp y))) at 1. apply Rmult_le_compat_l; [|lra].
    apply Rmult_le_pos; lra.
  Qed.
  Lemma sigma_lipschitz x y : Rabs (sigma x - sigma y) <= Rabs (x - y).
  Proof.
    assert (M : forall a b, a <= b -> sigma a <= sigma b).
    { intros a b H. unfold sigma. pose proof (exp_pos a). pose proof (exp_pos b).
      assert (exp a <= exp b) by (destruct H as [H| ->]; [left; apply exp_increasing; exact H|lra]).
      apply (Rmult_le_reg_r ((1 + exp a) * (1 + exp b))); [apply Rmult_lt_0_compat; lra|].
      replace (exp a / (1 + exp a) * ((1 + exp a) * (1 + exp b))) with (exp a * (1 + exp b)) by (field; lra).
      replace (exp b / (1 + exp b) * ((1 + exp a) * (1 + exp b))) with (exp b * (1 + exp a)) by (field; lra). lra. }
    destruct (Rle_dec x y) as [H|H].
    - rewrite (Rabs_minus_sym _ (sigma y)), (Rabs_minus_sym x). rewrite !Rabs_pos_eq; [apply sigma_le; exact H|lra|]. pose proof (M x y H). lra.
    - rewrite !Rabs_pos_eq; [apply sigma_le; lra|lra|]. pose proof (M y x ltac:(lra)). lra.
  Qed.

  Lemma frac_le n d : 0 <= n -> 1 <= d -> n / d <= n.
  Proof. intros H1 H2. apply (Rmult_le_reg_r d); [lra|]. unfold Rdiv. rewrite Rmult_assoc, Rinv_l by lra. nra. Qed.
  Lemma frac_le' x d M : Rabs x <= M -> 1 <= Rabs d -> Rabs x * / Rabs d <= M.
  Proof. intros H P. eapply Rle_trans; [|exact H]. apply (frac_le (Rabs x) (Rabs d)); [apply Rabs_pos|exact P]. Qed.
  Lemma frac_pos n d : 0 <= n -> 1 <= d -> 0 <= n / d.
  Proof. intros H1 H2. apply Rle_mult_inv_pos; lra. Qed.
  (** A quotient by 1 + e', e' close to e, correctly rounded twice. *)
  Lemma quotient_error n n' ex ex' a : 0 <= n' <= 1 + a -> 0 <= ex -> 0 <= ex' -> 0 <= a ->
    Rabs (n' / (1 + ex') - n / (1 + ex)) <= a ->
    Rabs (rnd F (n' / rnd F (1 + ex')) - n / (1 + ex)) <= a + (u + e) * (1 + a) + u * (1 + a) + e.
  Proof.
    intros Hn H0 H1 Ha H. pose proof (uu_pos F). pose proof (eta_pos F).
    set (d := rnd F (1 + ex')). assert (D1 : 1 <= d) by (unfold d; apply (Rle_trans _ (rnd F 1)); [rewrite rnd_1; lra|apply rnd_mono; lra]).
    pose proof (rnd_err F (1 + ex')) as ED. fold d in ED. rewrite (Rabs_pos_eq (1 + ex')) in ED by lra.
    pose proof (rnd_err F (n' / d)) as EQ. pose proof (frac_le n' d ltac:(lra) D1) as Q1. pose proof (frac_pos n' d ltac:(lra) D1) as Q0. rewrite (Rabs_pos_eq (n' / d)) in EQ by exact Q0.
    assert (EM : Rabs (n' / d - n' / (1 + ex')) <= (u + e) * (1 + a)).
    { replace (n' / d - n' / (1 + ex')) with (n' / d * ((1 + ex' - d) / (1 + ex'))) by (field; lra).
      rewrite (Rmult_comm (u + e)). rewrite Rabs_mult, (Rabs_pos_eq (n' / d)) by exact Q0. apply Rmult_le_compat; [exact Q0|apply Rabs_pos|lra|].
      unfold Rdiv. rewrite Rabs_mult, Rabs_minus_sym, Rabs_inv, (Rabs_pos_eq (1 + ex')) by lra.
      apply (Rmult_le_reg_r (1 + ex')); [lra|]. rewrite Rmult_assoc, Rinv_l, Rmult_1_r by lra.
      replace ((u + e) * (1 + ex')) with (u * (1 + ex') + (e + e * ex')) by ring. pose proof (Rmult_le_pos e ex'). lra. }
    assert (EU : u * (n' / d) <= u * (1 + a)) by (apply Rmult_le_compat_l; lra).
    replace (rnd F (n' / d) - n / (1 + ex)) with ((rnd F (n' / d) - n' / d) + (n' / d - n' / (1 + ex')) + (n' / (1 + ex') - n / (1 + ex))) by ring.
    eapply Rle_trans; [apply Rabs_triang|]. eapply Rle_trans; [apply Rplus_le_compat_r, Rabs_triang|]. lra.
  Qed.
  Lemma exp_close t : t <= 0 -> let ex' := rnd F (fexp F t) in 0 <= ex' /\ Rabs (ex' - exp t) <= eps F + e /\ exp t <= 1.
  Proof.
    intros H ex'. assert (E1 : exp t <= 1) by (rewrite <- exp_0; destruct H as [H| ->]; [left; apply exp_increasing; exact H|lra]).
    split; [unfold ex'; rewrite <- (rnd_0 F); apply rnd_mono, fexp_pos|]. split; [|exact E1].
    eapply Rle_trans; [apply fexp_err|]. pose proof (eps_pos F). pose proof (exp_pos t). nra.
  Qed.
  Lemma sigmoid_local (z : float F) : Rabs (val (compute FN Sigmoid z) - sigma (val z)) <= sigmoid_error F.
  Proof.
    assert (EA : 0 <= eps F + e) by (pose proof (eps_pos F); pose proof (eta_pos F); lra).
    cbn [compute]. unfold nopp. cbn [nlt n0 n1 nexp nadd nsub ndiv fnum]. rewrite val_fl, rnd_0. unfold Rltb. unfold sigmoid_error. cbv zeta. destruct (Rlt_dec (val z) 0) as [H|H].
    - rewrite !val_fl, rnd_1. destruct (exp_close (val z) ltac:(lra)) as (P & C & E1). unfold sigma. pose proof (exp_pos (val z)) as EP.
      pose proof (abs_split _ _ C) as CS. apply quotient_error; try lra.
      replace (rnd F (fexp F (val z)) / (1 + rnd F (fexp F (val z))) - exp (val z) / (1 + exp (val z)))
        with ((rnd F (fexp F (val z)) - exp (val z)) / ((1 + rnd F (fexp F (val z))) * (1 + exp (val z)))) by (field; lra).
      unfold Rdiv. rewrite Rabs_mult, Rabs_inv. rewrite (Rabs_pos_eq ((1 + _) * _)) by nra. eapply Rle_trans; [|exact C].
      apply frac_le; [apply Rabs_pos|nra].
    - rewrite !val_fl, ?rnd_1, ?rnd_0. replace (rnd F (0 - val z)) with (- val z) by (replace (0 - val z) with (- val z) by ring; rewrite rnd_opp, val_rnd; reflexivity).
      destruct (exp_close (- val z) ltac:(lra)) as (P & C & E1). unfold sigma. pose proof (exp_pos (- val z)) as EP.
      replace (exp (val z) / (1 + exp (val z))) with (1 / (1 + exp (- val z))) by (rewrite exp_Ropp; pose proof (exp_pos (val z)); field; lra).
      pose proof (abs_split _ _ C) as CS. apply quotient_error; try lra.
      replace (1 / (1 + rnd F (fexp F (- val z))) - 1 / (1 + exp (- val z)))
        with ((exp (- val z) - rnd F (fexp F (- val z))) / ((1 + rnd F (fexp F (- val z))) * (1 + exp (- val z)))) by (field; lra).
      unfold Rdiv. rewrite Rabs_mult, Rabs_inv. rewrite (Rabs_pos_eq ((1 + _) * _)) by nra. rewrite Rabs_minus_sym. eapply Rle_trans; [|exact C].
      apply frac_le; [apply Rabs_pos|nra].
  Qed.
  (** ** Exponential and quotients. *)
  Lemma exp_le x y : x <= y -> exp x <= exp y.
  Proof. intros [H| ->]; [left; apply exp_increasing; exact H|lra]. Qed.
  Lemma exp_minus_1 t E : Rabs t <= E -> Rabs (exp t - 1) <= exp E - 1.
  Proof.
    intros H. apply abs_split in H. destruct (Rle_dec 0 t) as [P|P].
    - assert (X : exp 0 <= exp t) by (apply exp_le; lra). rewrite exp_0 in X. rewrite Rabs_pos_eq by lra. assert (exp t <= exp E) by (apply exp_le; lra). lra.
    - assert (X : exp t <= exp 0) by (apply exp_le; lra). rewrite exp_0 in X. rewrite Rabs_left1 by lra.
      assert (Y : exp (- E) <= exp t) by (apply exp_le; lra). assert (Z : exp (- E) * exp E = 1) by (rewrite <- exp_plus; replace (- E + E) with 0 by ring; apply exp_0).
      assert (E0 : exp 0 <= exp E) by (apply exp_le; lra). rewrite exp_0 in E0. pose proof (exp_pos (- E)). nra.
  Qed.
  Lemma about_exp a b c : @about F a b c -> about (nexp FN a) (nexp Rnum b) (nexp BN c).
  Proof.
    cbn [nexp fnum Rnum bnum]. destruct c as [x y|M E|]; [| |intros; exact I].
    - intros (-> & ->). split; reflexivity.
    - intros (H1 & H2). cbn [bexp about]. pose proof (exp_pos b). assert (X : exp b <= exp M) by (apply exp_le; apply abs_split in H1; lra).
      split; [rewrite Rabs_pos_eq; lra|]. rewrite val_fl. assert (Y : exp (val a) <= exp (M + E)) by (apply exp_le; apply abs_split in H1; apply abs_split in H2; lra).
      replace (rnd F (fexp F (val a)) - exp b) with ((rnd F (fexp F (val a)) - exp (val a)) + (exp (val a) - exp b)) by ring.
      eapply Rle_trans; [apply Rabs_triang|].
      assert (Z : Rabs (exp (val a) - exp b) <= exp M * (exp E - 1)).
      { replace (exp (val a) - exp b) with (exp b * (exp (val a - b) - 1)).
        - rewrite Rabs_mult. apply Rmult_le_compat; try apply Rabs_pos; [rewrite Rabs_pos_eq; lra|]. apply exp_minus_1. exact H2.
        - rewrite Rmult_minus_distr_l, <- exp_plus. replace (b + (val a - b)) with (val a) by ring. ring. }
      pose proof (fexp_err F (val a)). assert (eps F * exp (val a) <= eps F * exp (M + E)) by (apply Rmult_le_compat_l; [apply eps_pos|exact Y]). lra.
  Qed.
  Lemma about_quot L L' M0 a b c a' b' c' : @about F a b c -> @about F a' b' c' -> 0 < L -> 0 < L' -> L <= Rabs b' -> L' <= Rabs (val a') -> Rabs (b / b') <= M0 ->
    about (ndiv FN a a') (ndiv Rnum b b') (bquot F L L' M0 c c').
  Proof.
    intros H H' P P' Q Q' HM. assert (U : c = Unknown \/ c' = Unknown \/ (c <> Unknown /\ c' <> Unknown)) by (destruct c, c'; auto; right; right; split; discriminate).
    destruct U as [-> |[-> |(U & U')]]; [destruct c'; exact I|destruct c; exact I|].
    assert (E : bquot F L L' M0 c c' = rounded F M0 (error c / L' + magnitude c * error c' / (L * L'))) by (destruct c, c'; try reflexivity; contradiction).
    rewrite E. clear E. destruct (about_within a b c U H) as (H1 & H2). destruct (about_within a' b' c' U' H') as (_ & H3).
    cbn [ndiv fnum Rnum]. apply rounded_ok; [exact HM|].
    assert (Nb : b' <> 0) by (intros ->; rewrite Rabs_R0 in Q; lra). assert (Na : val a' <> 0) by (intros X; rewrite X, Rabs_R0 in Q'; lra).
    replace (val a / val a' - b / b') with ((val a - b) / val a' + b * (b' - val a') / (b' * val a')) by (field; split; assumption).
    eapply Rle_trans; [apply Rabs_triang|]. unfold Rdiv. rewrite !Rabs_mult, !Rabs_inv, Rabs_mult. rewrite (Rabs_minus_sym b' (val a')).
    assert (I1 : / Rabs (val a') <= / L') by (apply Rinv_le_contravar; assumption).
    assert (I2 : / (Rabs b' * Rabs (val a')) <= / (L * L')) by (apply Rinv_le_contravar; [apply Rmult_lt_0_compat; assumption|apply Rmult_le_compat; lra]).
    apply Rplus_le_compat.
    - apply Rmult_le_compat; try assumption; [apply Rabs_pos|]. left. apply Rinv_0_lt_compat. lra.
    - apply Rmult_le_compat; try assumption; [apply Rmult_le_pos; apply Rabs_pos| |].
      + left. apply Rinv_0_lt_compat. apply Rmult_lt_0_compat; lra.
      + apply Rmult_le_compat; try apply Rabs_pos; assumption.
  Qed.
  Lemma one_plus x : 0 <= x -> 1 <= rnd F (1 + x).
  Proof. intros H. rewrite <- (rnd_1 F) at 1. apply rnd_mono. lra. Qed.
  Lemma float_exp_pos t : 0 <= rnd F (fexp F t).
  Proof. rewrite <- (rnd_0 F). apply rnd_mono, fexp_pos. Qed.
  Lemma one_pos_exp (a : float F) : 1 <= Rabs (val (nadd FN (n1 FN) (nexp FN a))).
  Proof.
    cbn [nadd n1 nexp fnum]. rewrite !val_fl, rnd_1. pose proof (one_plus _ (float_exp_pos (val a))). rewrite Rabs_pos_eq; lra.
  Qed.
  Lemma exp_pos_one (a : float F) : 1 <= Rabs (val (nadd FN (nexp FN a) (n1 FN))).
  Proof.
    cbn [nadd n1 nexp fnum]. rewrite !val_fl, rnd_1. rewrite Rplus_comm. pose proof (one_plus _ (float_exp_pos (val a))). rewrite Rabs_pos_eq; lra.
  Qed.
  Lemma real_one_exp t : 1 <= Rabs (1 + exp t).
  Proof. pose proof (exp_pos t). rewrite Rabs_pos_eq; lra. Qed.
  Lemma tanh_le t : Rabs ((exp t - 1) / (exp t + 1)) <= 1.
  Proof.
    pose proof (exp_pos t). unfold Rdiv. rewrite Rabs_mult, Rabs_inv. apply (Rmult_le_reg_r (Rabs (exp t + 1))); [rewrite Rabs_pos_eq; lra|].
    rewrite Rmult_assoc, Rinv_l by (rewrite Rabs_pos_eq; lra). rewrite (Rabs_pos_eq (exp t + 1)) by lra. rewrite Rmult_1_r, Rmult_1_l. apply Rabs_le. lra.
  Qed.
  Lemma tanh_two t : (exp (2 * t) - 1) / (exp (2 * t) + 1) = (1 - exp ((0 - 2) * t)) / (1 + exp ((0 - 2) * t)).
  Proof.
    replace ((0 - 2) * t) with (- (2 * t)) by ring. rewrite exp_Ropp. pose proof (exp_pos (2 * t)). field. lra.
  Qed.
  Lemma about_act act a b c : @about F a b c -> about (compute FN act a) (compute Rnum (exact_act F act) b) (act_bound F act c).
  Proof.
    intros H. destruct act; try (destruct c; exact I).
    - destruct c as [x y|M E|]; [| |exact I].
      1, 2: apply (about_within a b) in H; [|discriminate]; destruct H as (_ & H); cbn [act_bound exact_act]; rewrite sigma_compute; split;
        [pose proof (sigma_range b); rewrite Rabs_pos_eq; lra|];
        (replace (val (compute FN Sigmoid a) - sigma b) with ((val (compute FN Sigmoid a) - sigma (val a)) + (sigma (val a) - sigma b)) by ring);
        (eapply Rle_trans; [apply Rabs_triang|]); pose proof (sigmoid_local a); pose proof (sigma_lipschitz (val a) b); lra.
    - (* Silu *)
      assert (X : c = Unknown \/ (c <> Unknown /\ act_bound F Silu c = bquot F 1 1 (magnitude c) c (badd F (Known 1 1) (bexp F (bsub F (Known 0 0) c))))) by (destruct c; [right; split; [discriminate|reflexivity]..|left; reflexivity]).
      destruct X as [-> |(U & ->)]; [exact I|]. cbn [compute exact_act].
      apply about_quot; [exact H|apply about_add; [apply about_1|apply about_exp, about_sub; [apply about_0|exact H]]|lra|lra|apply real_one_exp|apply one_pos_exp|].
      destruct (about_within a b c U H) as (H1 & _). cbn [nadd n1 nexp nopp nsub Rnum]. unfold Rdiv. rewrite Rabs_mult, Rabs_inv. unfold nopp. cbn [nsub n0 Rnum].
      pose proof (real_one_exp (0 - b)). apply frac_le' with (1 := H1). assumption.
    - cbn [act_bound exact_act compute]. rewrite max_real. cbn [n0 Rnum]. destruct c as [x y|M E|]; [| |exact I].
      + destruct H as (<- & ->). split; [|reflexivity]. rewrite max_val. cbn [n0 fnum]. rewrite val_fl, rnd_0. reflexivity.
      + destruct H as (H1 & H2). cbn [about]. rewrite max_val. cbn [n0 fnum]. rewrite val_fl, rnd_0. apply abs_split in H1. apply abs_split in H2.
        split; apply Rabs_le; unfold Rmax; destruct (Rle_dec 0 b); try destruct (Rle_dec 0 (val a)); lra.
    - (* TanH *)
      assert (X : c = Unknown \/ c <> Unknown) by (destruct c; [right; discriminate..|left; reflexivity]).
      destruct X as [-> |U]; [exact I|].
      pose proof (about_exp _ _ _ (about_mul _ _ _ _ _ _ (about_ofZ 2) H)) as UP.
      pose proof (about_exp _ _ _ (about_mul _ _ _ _ _ _ (about_sub _ _ _ _ _ _ about_0 (about_ofZ 2)) H)) as DOWN.
      pose proof (about_quot 1 1 1 _ _ _ _ _ _ (about_sub _ _ _ _ _ _ UP about_1) (about_add _ _ _ _ _ _ UP about_1) Rlt_0_1 Rlt_0_1) as Q1.
      pose proof (about_quot 1 1 1 _ _ _ _ _ _ (about_sub _ _ _ _ _ _ about_1 DOWN) (about_add _ _ _ _ _ _ about_1 DOWN) Rlt_0_1 Rlt_0_1) as Q2.
      cbn [nadd nsub nexp nmul ndiv n1 n0 nofZ Rnum] in Q1, Q2.
      specialize (Q1 ltac:(rewrite Rplus_comm; apply real_one_exp) (exp_pos_one _) (tanh_le _)).
      specialize (Q2 (real_one_exp _) (one_pos_exp _)). rewrite <- tanh_two in Q2. specialize (Q2 (tanh_le _)).
      assert (R : compute Rnum TanH b = (exp (2 * b) - 1) / (exp (2 * b) + 1)).
      { cbn [compute]. destruct (nlt Rnum b (n0 Rnum)); cbn [ndiv nsub nadd nmul nexp nofZ n1 Rnum]; [reflexivity|]. unfold nopp. cbn [nsub n0 Rnum]. symmetry. apply tanh_two. }
      cbn [exact_act]. rewrite R.
      assert (B : act_bound F TanH c = let two := Known (rnd F 2) 2 in
        let up := bexp F (bmul F two c) in let down := bexp F (bmul F (bsub F (Known 0 0) two) c) in
        Within 1 (Rmax (error (bquot F 1 1 1 (bsub F up (Known 1 1)) (badd F up (Known 1 1))))
                       (error (bquot F 1 1 1 (bsub F (Known 1 1) down) (badd F (Known 1 1) down))))) by (destruct c; try reflexivity; contradiction).
      rewrite B. clear B. cbv zeta.
      set (q1 := bquot F 1 1 1 (bsub F _ (Known 1 1)) _). set (q2 := bquot F 1 1 1 (bsub F (Known 1 1) _) _).
      assert (N1 : q1 <> Unknown) by (unfold q1; destruct c; try contradiction; discriminate).
      assert (N2 : q2 <> Unknown) by (unfold q2; destruct c; try contradiction; discriminate).
      apply about_within in Q1; [|exact N1]. apply about_within in Q2; [|exact N2]. destruct Q1 as (_ & Q1), Q2 as (_ & Q2).
      change (error (bquot F 1 1 1 (nsub BN _ _) (nadd BN _ (n1 BN)))) with (error q1) in Q1. change (error (bquot F 1 1 1 (nsub BN _ _) (nadd BN (n1 BN) _))) with (error q2) in Q2.
      split; [apply tanh_le|]. cbn [compute]. pose proof (Rmax_l (error q1) (error q2)). pose proof (Rmax_r (error q1) (error q2)).
      destruct (nlt FN a (n0 FN)); eapply Rle_trans; [exact Q1| |exact Q2|]; assumption.
    - exact H.
    - (* Exponential *)
      assert (X : act_bound F Exponential c = bexp F c) by (destruct c; reflexivity). rewrite X. apply (about_exp a b c). exact H.
  Qed.

  (** ** Tensors. *)
  Lemma aa_app la lb lc la' lb' lc' : @all_about F la lb lc -> all_about la' lb' lc' -> all_about (la ++ la') (lb ++ lb') (lc ++ lc').
  Proof. induction 1; cbn; [auto|intros; constructor; auto]. Qed.
  Lemma aa_map_seq {A} (l : list A) f g h : (forall k, In k l -> @about F (f k) (g k) (h k)) -> all_about (map f l) (map g l) (map h l).
  Proof. induction l; intros H; cbn; constructor; [apply H; left; reflexivity|apply IHl; intros; apply H; right; assumption]. Qed.
  Lemma aa_tab n f g h : (forall k, (0 <= k < n)%Z -> @about F (f k) (g k) (h k)) -> all_about (tab n f) (tab n g) (tab n h).
  Proof. intros H. unfold tab. apply aa_map_seq. intros k Hk. apply H. apply in_seq in Hk. lia. Qed.
  Lemma aa_tab3 C H W f g h : (forall i j k, @about F (f i j k) (g i j k) (h i j k)) -> all_about (tab3 C H W f) (tab3 C H W g) (tab3 C H W h).
  Proof. intros X. apply aa_tab. intros. apply X. Qed.
  Lemma aa_tab2 H W f g h : (forall i j, @about F (f i j) (g i j) (h i j)) -> all_about (tab2 H W f) (tab2 H W g) (tab2 H W h).
  Proof. intros X. apply aa_tab. intros. apply X. Qed.
  Lemma aa_map la lb lc f g h : (forall a b c, @about F a b c -> @about F (f a) (g b) (h c)) -> all_about la lb lc -> all_about (map f la) (map g lb) (map h lc).
  Proof. intros X. induction 1; cbn; constructor; auto. Qed.
  Lemma aa_flat_map {A} (l : list A) f g h : (forall k, @all_about F (f k) (g k) (h k)) -> all_about (flat_map f l) (flat_map g l) (flat_map h l).
  Proof. intros X. induction l; cbn; [constructor|]. apply aa_app; auto. Qed.
  Lemma aa_known l : all_about l (map val l) (map (known F) l).
  Proof. induction l; cbn; constructor; [apply about_known|assumption]. Qed.
  Lemma aa_lengths la lb lc : @all_about F la lb lc -> zlen la = zlen lb /\ zlen la = zlen lc.
  Proof. unfold zlen. induction 1; cbn [length]; lia. Qed.
  Lemma aa_nth la lb lc k : @all_about F la lb lc -> about (nthZ (n0 FN) la k) (nthZ (n0 Rnum) lb k) (nthZ (n0 BN) lc k).
  Proof.
    intros H. unfold nthZ, rdl. destruct ((k <? 0)%Z); [apply about_0|]. generalize (Z.to_nat k). intros n. revert n. induction H; intros [|n]; cbn; try apply about_0; auto.
  Qed.
  Lemma aa_at3 la lb lc H W i j k : @all_about F la lb lc -> about (at3 (n0 FN) H W la i j k) (at3 (n0 Rnum) H W lb i j k) (at3 (n0 BN) H W lc i j k).
  Proof. apply aa_nth. Qed.
  Lemma aa_at2 la lb lc W i j : @all_about F la lb lc -> about (at2 (n0 FN) W la i j) (at2 (n0 Rnum) W lb i j) (at2 (n0 BN) W lc i j).
  Proof. apply aa_nth. Qed.
  Lemma about_nsum n f g h : (forall k, (0 <= k < n)%Z -> @about F (f k) (g k) (h k)) -> about (nsum FN n f) (nsum Rnum n g) (nsum BN n h).
  Proof.
    intros H. destruct (Z_le_gt_dec n 0) as [L|L]; [rewrite !nsum_0 by lia; apply about_0|].
    assert (G : forall k, (0 <= k)%Z -> (k <= n)%Z -> about (nsum FN k f) (nsum Rnum k g) (nsum BN k h)); [|apply G; lia].
    intros k Hk. pattern k. revert k Hk. apply for_ind.
    - intros _. rewrite !nsum_0 by lia. apply about_0.
    - intros k Hk IH Hn. rewrite !nsum_succ by lia. apply about_add; [apply IH; lia|apply H; lia].
  Qed.
  Lemma about_fold op1 op2 op3 : (forall a b c a' b' c', @about F a b c -> @about F a' b' c' -> @about F (op1 a a') (op2 b b') (op3 c c')) ->
    forall la lb lc, @all_about F la lb lc -> forall a b c, about a b c -> about (fold_left op1 la a) (fold_left op2 lb b) (fold_left op3 lc c).
  Proof. intros X. induction 1; cbn; auto. Qed.
End Proofs.
