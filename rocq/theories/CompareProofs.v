(** * Proofs for C75: the comparison of two output files. *)
From Coq Require Import String Ascii.
From Coq Require Import ZArith List Lia Bool QArith Qpower Reals Qreals Lra.
Import ListNotations.
Open Scope list_scope.
Open Scope Z_scope.
From Verif Require Import HexLit HexLitProofs Compare.

(** ** Two numbers. *)
Lemma fmax_pos : (0 < fmax)%R.
Proof.
  unfold fmax. apply Rmult_lt_0_compat; [|apply pow_lt; lra].
  assert (/ 2 ^ 52 < / 1)%R by (apply Rinv_lt_contravar; [apply Rmult_lt_0_compat; [lra|apply pow_lt; lra]|apply Rlt_pow_R1; [lra|lia]]). lra.
Qed.
Lemma norm_nonneg a b : (0 <= norm a b)%R.
Proof. unfold norm. pose proof fmax_pos. pose proof (Rabs_pos a). pose proof (Rabs_pos b). apply Rmin_glb; lra. Qed.
Lemma relative_nonneg a b : (0 <= relative_error a b)%R.
Proof.
  unfold relative_error. destruct (Req_EM_T (norm a b) 0) as [E|E]; [lra|]. pose proof (norm_nonneg a b).
  unfold Rdiv. apply Rmult_le_pos; [apply Rabs_pos|]. left. apply Rinv_0_lt_compat. lra.
Qed.
Lemma absolute_nonneg a b : (0 <= absolute_error a b)%R.
Proof. apply Rabs_pos. Qed.
Lemma pmax_fin x y : pmax (Fin x) (Fin y) = Fin (Rmax x y).
Proof. unfold pmax, flt, Rmax. destruct (Rlt_dec x y), (Rle_dec x y); try reflexivity; f_equal; lra. Qed.
Lemma pmin_fin x y : pmin (Fin x) (Fin y) = Fin (Rmin x y).
Proof. unfold pmin, flt, Rmin. destruct (Rlt_dec y x), (Rle_dec x y); try reflexivity; f_equal; lra. Qed.
Lemma floats_fin a b : exists c, compare_floats (Fin a) (Fin b) = (c, Fin (absolute_error a b), Fin (relative_error a b)) /\ (c = true <-> similar a b).
Proof.
  unfold compare_floats. cbn [fsub fabs fadd feq]. rewrite pmin_fin. fold (norm a b). fold (absolute_error a b).
  destruct (Req_EM_T a b) as [E|E].
  - exists true. split; [|split; [left; exact E|reflexivity]]. subst b. do 2 f_equal. unfold relative_error. replace (a - a)%R with 0%R by ring. rewrite Rabs_R0.
    destruct (Req_EM_T (norm a a) 0); [reflexivity|]. unfold Rdiv. rewrite Rmult_0_l. reflexivity.
  - cbn [fscale feq]. rewrite pmax_fin. set (rel := if (if Req_EM_T (norm a b) 0 then true else false) then Fin 0 else fdiv (Fin (absolute_error a b)) (Fin (/ 2 * norm a b))).
    assert (ER : rel = Fin (relative_error a b)).
    { unfold rel, relative_error, absolute_error. destruct (Req_EM_T (norm a b) 0); [reflexivity|]. cbn [fdiv]. do 2 f_equal. unfold Rdiv. ring. }
    rewrite ER. unfold flt. destruct (Rlt_dec (absolute_error a b) (Rmax abs_th (epsilon * norm a b))) as [L|L].
    + exists true. split; [reflexivity|]. split; [right; exact L|reflexivity].
    + exists false. split; [reflexivity|]. split; [discriminate|]. intros [X|X]; [congruence|contradiction].
Qed.

(** ** Two lines. *)
Definition fold_max (err : R -> R -> R) (l : list (R * R)) (d : R) : R := fold_left (fun m p => Rmax (err (fst p) (snd p)) m) l d.
Lemma values_fin : forall l1 l2 ok d r, (length l1 <= length l2)%nat ->
  exists c, compare_values (map Fin l1) (map Fin l2) ok (Fin d) (Fin r) =
    Some (c, Fin (fold_max absolute_error (combine l1 l2) d), Fin (fold_max relative_error (combine l1 l2) r)) /\
    (c = true <-> ok = true /\ forall a b, In (a, b) (combine l1 l2) -> similar a b).
Proof.
  induction l1 as [|a l1 IH]; intros l2 ok d r H.
  - exists ok. split; [reflexivity|]. split; [intros ->; split; [reflexivity|intros a b []]|tauto].
  - destruct l2 as [|b l2]; [cbn in H; lia|]. cbn [map compare_values]. destruct (floats_fin a b) as (c & -> & HC). rewrite !pmax_fin.
    destruct (IH l2 (c && ok) (Rmax (absolute_error a b) d) (Rmax (relative_error a b) r) ltac:(cbn in H; lia)) as (c' & -> & HC').
    exists c'. split; [reflexivity|]. rewrite HC'. rewrite andb_true_iff, HC. cbn [combine In]. split.
    + intros ((S & O) & A). split; [exact O|]. intros x y [E|X]; [injection E as <- <-; exact S|apply A; exact X].
    + intros (O & A). split; [split; [apply A; left; reflexivity|exact O]|]. intros x y X. apply A. right. exact X.
Qed.
Lemma fold_max_start err : (forall a b, 0 <= err a b)%R -> forall l d, (0 <= d)%R -> fold_max err l d = Rmax (fold_max err l 0) d.
Proof.
  intros HE. unfold fold_max. induction l as [|p l IH]; intros d H.
  - cbn. rewrite Rmax_right by lra. reflexivity.
  - cbn [fold_left]. rewrite (IH (Rmax _ d)), (IH (Rmax _ 0)).
    + rewrite (Rmax_left _ 0) by apply HE. rewrite Rmax_assoc. reflexivity.
    + apply Rle_trans with (err (fst p) (snd p)); [apply HE|apply Rmax_l].
    + apply Rle_trans with d; [exact H|apply Rmax_r].
Qed.
Lemma fold_max_nonneg err l : (forall a b, 0 <= err a b)%R -> (0 <= fold_max err l 0)%R.
Proof.
  intros HE. assert (G : forall d, (0 <= d)%R -> (0 <= fold_max err l d)%R).
  { unfold fold_max. induction l as [|p l IH]; intros d H; [exact H|]. cbn [fold_left]. apply IH. apply Rle_trans with d; [exact H|apply Rmax_r]. }
  apply G. lra.
Qed.
Lemma fold_max_app err l1 l2 d : fold_max err (l1 ++ l2) d = fold_max err l2 (fold_max err l1 d).
Proof. apply fold_left_app. Qed.
Lemma fold_max_greatest err l : (forall a b, 0 <= err a b)%R -> greatest err l (fold_max err l 0).
Proof.
  intros HE. unfold greatest. induction l as [|[a b] l IH].
  - split; [intros ? ? []|left; split; reflexivity].
  - unfold fold_max. cbn [fold_left fst snd]. fold (fold_max err l (Rmax (err a b) 0)). rewrite (Rmax_left _ 0) by apply HE.
    rewrite fold_max_start by (try apply HE; exact HE). destruct IH as (U & A). split.
    + intros x y [E|X]; [injection E as <- <-; apply Rmax_r|]. apply Rle_trans with (2 := Rmax_l _ _). apply U. exact X.
    + right. unfold Rmax. destruct (Rle_dec (fold_max err l 0) (err a b)) as [L|L].
      * exists a, b. split; [left; reflexivity|reflexivity].
      * destruct A as [(-> & E)|(x & y & X & E)].
        -- exfalso. apply L. unfold fold_max. cbn. apply HE.
        -- exists x, y. split; [right; exact X|exact E].
Qed.

(** ** Two files. *)
Section Files.
  Context (float32 : fl -> fl) (precision : string).
  Definition line_reads (line : string) (l : list R) : Prop := preprocess_line float32 line precision = Some (map Fin l).
  Lemma from_fin nb : forall f1 f2 L1 L2 k ok d r, Forall2 line_reads f1 L1 -> Forall2 line_reads f2 L2 ->
    Forall2 (fun l1 l2 => (length l1 <= length l2)%nat) (firstn (Z.to_nat (nb + 1 - k)) L1) (firstn (Z.to_nat (nb + 1 - k)) L2) -> (0 <= d)%R -> (0 <= r)%R ->
    exists c, let l := places (firstn (Z.to_nat (nb + 1 - k)) L1) (firstn (Z.to_nat (nb + 1 - k)) L2) in
      compare_from float32 k f1 f2 nb precision ok (Fin d) (Fin r) = Some (c, Fin (fold_max absolute_error l d), Fin (fold_max relative_error l r)) /\
      (c = true <-> ok = true /\ forall a b, In (a, b) l -> similar a b).
  Proof.
    assert (STOP : forall ok d r, exists c, Some (ok, Fin d, Fin r) = Some (c, Fin (fold_max absolute_error [] d), Fin (fold_max relative_error [] r)) /\ (c = true <-> ok = true /\ forall a b, In (a, b) [] -> similar a b)).
    { intros ok d r. exists ok. split; [reflexivity|]. split; [intros ->; split; [reflexivity|intros a b []]|tauto]. }
    induction f1 as [|line1 f1 IH]; intros f2 L1 L2 k ok d r H1 H2 HL Hd Hr.
    - inversion H1; subst. rewrite firstn_nil. cbn [places compare_from]. apply STOP.
    - inversion H1 as [|? l1 ? L1' E1 H1' X Y]; subst L1. destruct f2 as [|line2 f2].
      + inversion H2; subst. rewrite firstn_nil. cbn [compare_from]. destruct (firstn _ (l1 :: L1')); cbn [places]; apply STOP.
      + inversion H2 as [|? l2 ? L2' E2 H2' X2 Y2]; subst L2. cbn [compare_from]. destruct (Z.ltb_spec k (nb + 1)) as [LT|LT].
        * replace (Z.to_nat (nb + 1 - k)) with (S (Z.to_nat (nb + 1 - (k + 1)))) in * by lia. cbn [firstn places] in *. inversion HL as [|? ? ? ? HL1 HL2]; subst.
          unfold compare_lines. rewrite E1, E2. destruct (values_fin l1 l2 true 0 0 HL1) as (c & -> & HC). rewrite !pmax_fin.
          rewrite <- (fold_max_start absolute_error absolute_nonneg _ d Hd), <- (fold_max_start relative_error relative_nonneg _ r Hr).
          assert (Hd' : (0 <= fold_max absolute_error (combine l1 l2) d)%R).
          { rewrite (fold_max_start absolute_error absolute_nonneg _ d Hd). apply Rle_trans with d; [exact Hd|apply Rmax_r]. }
          assert (Hr' : (0 <= fold_max relative_error (combine l1 l2) r)%R).
          { rewrite (fold_max_start relative_error relative_nonneg _ r Hr). apply Rle_trans with r; [exact Hr|apply Rmax_r]. }
          assert (NEXT : exists c', let l := places (firstn (Z.to_nat (nb + 1 - (k + 1))) L1') (firstn (Z.to_nat (nb + 1 - (k + 1))) L2') in
             compare_from float32 (k + 1) f1 f2 nb precision (c && ok) (Fin (fold_max absolute_error (combine l1 l2) d)) (Fin (fold_max relative_error (combine l1 l2) r)) =
               Some (c', Fin (fold_max absolute_error l (fold_max absolute_error (combine l1 l2) d)), Fin (fold_max relative_error l (fold_max relative_error (combine l1 l2) r))) /\
             (c' = true <-> c && ok = true /\ forall a b, In (a, b) l -> similar a b)) by (apply IH; assumption).
          destruct NEXT as (c' & EN & HN). rewrite !fold_max_app. exists c'. cbv zeta.
          assert (HCC : c' = true <-> ok = true /\ forall a b, In (a, b) (combine l1 l2 ++ places (firstn (Z.to_nat (nb + 1 - (k + 1))) L1') (firstn (Z.to_nat (nb + 1 - (k + 1))) L2')) -> similar a b).
          { rewrite HN, andb_true_iff, HC. split.
            - intros (((_ & A) & O) & B). split; [exact O|]. intros a b I. apply in_app_or in I. destruct I as [I|I]; [apply A|apply B]; exact I.
            - intros (O & A). split; [split; [split; [reflexivity|]|exact O]|]; intros a b I; apply A; apply in_or_app; [left|right]; exact I. }
          split; [|exact HCC].
          destruct (Z.eqb_spec k nb) as [EK|NK]; [|exact EN].
          rewrite <- EN. replace (Z.to_nat (nb + 1 - (k + 1))) with 0%nat in EN by lia. cbn [firstn places fold_max fold_left] in EN.
          destruct f1; [reflexivity|]. destruct f2; [reflexivity|]. cbn [compare_from]. replace (k + 1 <? nb + 1) with false by (symmetry; apply Z.ltb_ge; lia). reflexivity.
        * replace (Z.to_nat (nb + 1 - k)) with 0%nat by lia. cbn [firstn places]. apply STOP.
  Qed.
  Lemma files_fin f1 f2 L1 L2 nb : Forall2 line_reads f1 L1 -> Forall2 line_reads f2 L2 ->
    Forall2 (fun l1 l2 => (length l1 <= length l2)%nat) (firstn (Z.to_nat (nb + 1)) L1) (firstn (Z.to_nat (nb + 1)) L2) ->
    let l := places (firstn (Z.to_nat (nb + 1)) L1) (firstn (Z.to_nat (nb + 1)) L2) in
    exists c d r, compare_files float32 f1 f2 nb precision = Some (c, Fin d, Fin r) /\
      greatest absolute_error l d /\ greatest relative_error l r /\ (c = true <-> forall a b, In (a, b) l -> similar a b).
  Proof.
    intros H1 H2 HL l. destruct (from_fin nb f1 f2 L1 L2 0 true 0 0 H1 H2 ltac:(rewrite Z.sub_0_r; exact HL) (Rle_refl 0) (Rle_refl 0)) as (c & E & HC). rewrite Z.sub_0_r in E, HC. cbv zeta in E, HC. fold l in E, HC.
    exists c, (fold_max absolute_error l 0), (fold_max relative_error l 0). split; [exact E|]. split; [apply fold_max_greatest, absolute_nonneg|]. split; [apply fold_max_greatest, relative_nonneg|].
    rewrite HC. split; [intros (_ & A); exact A|intros A; split; [reflexivity|exact A]].
  Qed.
End Files.

(** ** Reading what was written. *)
Definition solid (l : list ascii) : Prop := l <> [] /\ Forall (fun c => blank c = false) l.
Lemma drop_solid l : Forall (fun c => blank c = false) l -> drop_blank l = l.
Proof. intros F. destruct F as [|c l E F]; [reflexivity|]. cbn. rewrite E. reflexivity. Qed.
Lemma strip_solid l : Forall (fun c => blank c = false) l -> strip l = l.
Proof.
  intros F. unfold strip. rewrite (drop_solid l F). rewrite drop_solid; [apply rev_involutive|].
  apply Forall_forall. intros c X. apply in_rev in X. rewrite Forall_forall in F. apply F. exact X.
Qed.
Lemma split_token t r : Forall (fun c => blank c = false) t -> split_on " " (t ++ " "%char :: r) = t :: split_on " " r.
Proof.
  intros F. induction F as [|c t E F IH]; [reflexivity|]. cbn [Datatypes.app split_on]. destruct (Ascii.eqb_spec c " ") as [->|N]; [discriminate E|].
  rewrite IH. reflexivity.
Qed.
Definition kept (t : list ascii) : bool := match strip t with [] => false | _ => true end.
Lemma kept_solid t : solid t -> kept t = true.
Proof. intros (N & F). unfold kept. rewrite strip_solid by exact F. destruct t; [congruence|reflexivity]. Qed.
Lemma join_tokens ts r : Forall solid ts -> filter kept (split_on " " (join ts ++ " "%char :: r)) = ts ++ filter kept (split_on " " r).
Proof.
  intros F. induction F as [|t ts (N & E) F IH]; [reflexivity|]. destruct ts as [|t' ts].
  - cbn [join]. rewrite split_token by exact E. cbn [filter]. rewrite kept_solid by (split; assumption). reflexivity.
  - change (join (t :: t' :: ts)) with (t ++ " "%char :: join (t' :: ts)). rewrite <- app_assoc. cbn [Datatypes.app]. rewrite split_token by exact E.
    cbn [filter]. rewrite kept_solid by (split; assumption). cbn [Datatypes.app] in IH. rewrite IH. reflexivity.
Qed.
Lemma blank_tokens ts r : Forall solid ts -> filter kept (split_on " " (flat_map (fun t => t ++ [" "%char]) ts ++ r)) = ts ++ filter kept (split_on " " r).
Proof.
  intros F. induction F as [|t ts (N & E) F IH]; [reflexivity|]. cbn [flat_map]. rewrite <- !app_assoc. cbn [Datatypes.app]. rewrite split_token by exact E.
  cbn [filter]. rewrite kept_solid by (split; assumption). rewrite IH. reflexivity.
Qed.
Lemma hex_not_blank c : is_hex c = true -> blank c = false.
Proof.
  unfold is_hex, digit_of, blank. set (n := Z.of_nat (nat_of_ascii c)). clearbody n. intros H.
  destruct (Z.eqb_spec n 32), (Z.leb_spec 9 n), (Z.leb_spec n 13); try reflexivity; exfalso; revert H;
  destruct (Z.leb_spec 48 n), (Z.leb_spec n 57), (Z.leb_spec 97 n), (Z.leb_spec n 102), (Z.leb_spec 65 n), (Z.leb_spec n 70); cbn; try discriminate; lia.
Qed.
Lemma dec_not_blank c : is_dec c = true -> blank c = false.
Proof. intros H. apply hex_not_blank. unfold is_dec in H. unfold is_hex. destruct (digit_of c); [reflexivity|discriminate]. Qed.
Lemma not_blank_number neg lead fs e : 0 <= lead < 16 -> Forall (fun c => is_hex c = true \/ c = "."%char) fs ->
  solid (minus neg ++ "0"%char :: "x"%char :: hex_char lead :: fs ++ p :: esign e :: dec_digits 4 (Z.abs e)).
Proof.
  intros HL HF. split; [destruct neg; discriminate|]. apply Forall_app. split; [destruct neg; repeat constructor|].
  constructor; [reflexivity|]. constructor; [reflexivity|]. constructor; [apply hex_not_blank, is_hex_char; exact HL|]. apply Forall_app. split.
  - eapply Forall_impl; [|exact HF]. intros c [X| -> ]; [apply hex_not_blank; exact X|reflexivity].
  - constructor; [reflexivity|]. constructor; [unfold esign; destruct (e <? 0); reflexivity|]. eapply Forall_impl; [|apply dec_digits_dec]. intros c. apply dec_not_blank.
Qed.
Lemma data2c_solid d v : binary64 d -> value d = Some v -> solid (list_ascii_of_string (data2c d)).
Proof.
  intros B E. destruct d as [neg|neg lead fr e|neg|]; try discriminate E.
  - destruct neg; (split; [discriminate|cbv; repeat constructor]).
  - destruct B as (Hf & HB). assert (HL : lead = 0 \/ lead = 1) by lia. destruct (written neg lead fr e HL) as (fs & W & HF).
    unfold data2c. rewrite list_ascii_of_string_of_list_ascii, pattern_eq. change (solid (replace (zeros ++ [p]) [p] (py_hex (DFinite neg lead fr e)))). rewrite W. apply (not_blank_number neg lead ("."%char :: fs) e); [lia|].
    constructor; [right; reflexivity|]. assert (FH : Forall (fun c => is_hex c = true) fs).
    { destruct HF as [-> |HF]; [apply hex_digits_hex|]. pose proof (hex_digits_hex 13 fr) as X. rewrite HF in X. apply Forall_app in X. apply X. }
    eapply Forall_impl; [|exact FH]. intros c X. left. exact X.
Qed.
(** printf "%a". *)
Lemma drop_zeros_split : forall l, exists k, l = repeat "0"%char k ++ drop_zeros l.
Proof.
  induction l as [|c l (k & IH)]; [exists 0%nat; reflexivity|]. cbn [drop_zeros]. destruct (Ascii.eqb_spec c "0") as [-> |N]; [|exists 0%nat; reflexivity].
  exists (S k). cbn. rewrite <- IH. reflexivity.
Qed.
Lemma rev_repeat {A} (x : A) k : rev (repeat x k) = repeat x k.
Proof.
  induction k as [|k IH]; [reflexivity|]. cbn. rewrite IH. clear IH. induction k as [|k IH]; [reflexivity|]. cbn. rewrite IH. reflexivity.
Qed.
Lemma short_split l : exists fs k, l = fs ++ repeat "0"%char k /\ short l = match fs with [] => [] | _ => "."%char :: fs end.
Proof.
  destruct (drop_zeros_split (rev l)) as (k & E). exists (rev (drop_zeros (rev l))), k. split; [|unfold short; destruct (rev (drop_zeros (rev l))); reflexivity].
  apply (f_equal (@rev _)) in E. rewrite rev_involutive, rev_app_distr, rev_repeat in E. exact E.
Qed.
Lemma number_zeros k : number 16 (repeat "0"%char k) = 0.
Proof.
  induction k as [|k IH]; [reflexivity|]. change (repeat "0"%char (S k)) with (["0"%char] ++ repeat "0"%char k). rewrite number_concat, IH.
  change (number 16 ["0"%char]) with 0. lia.
Qed.
Lemma scaled_short neg lead fr e fs k : 0 <= fr < 16 ^ 13 -> hex_digits 13 fr = fs ++ repeat "0"%char k ->
  (scaled neg (lead * 16 ^ Z.of_nat (length fs) + number 16 fs) (Z.of_nat (length fs)) e == inject_Z (signed neg (lead * 16 ^ 13 + fr)) * Qpower 2 (e - 52))%Q.
Proof.
  intros Hf E. pose proof (hex_digits_number 13 fr Hf) as EN. pose proof (hex_digits_length 13 fr) as L. rewrite E, app_length, repeat_length in L.
  rewrite E, number_concat, number_zeros, repeat_length in EN. set (n := Z.of_nat (length fs)) in *. set (K := Z.of_nat k) in *.
  assert (LK : n = 13 - K) by (unfold n, K; lia). assert (HK : 0 <= K) by (unfold K; lia). assert (Hn : 0 <= n) by (unfold n; lia). clearbody n K.
  unfold scaled. replace (e - 4 * n) with (4 * K + (e - 52)) by lia. rewrite pow2_split.
  assert (P : (Qpower 2 (4 * K) == inject_Z (16 ^ K))%Q).
  { change 2%Q with (inject_Z 2). rewrite <- Zpower_Qpower by lia. rewrite Z.pow_mul_r by lia. reflexivity. }
  rewrite P. rewrite Qmult_assoc. rewrite <- inject_Z_mult.
  replace (signed neg (lead * 16 ^ n + number 16 fs) * 16 ^ K) with (signed neg (lead * 16 ^ 13 + fr)); [reflexivity|].
  rewrite <- EN. replace 13 with (n + K) by lia. rewrite Z.pow_add_r by lia. destruct neg; cbn [signed]; ring.
Qed.
Lemma body_without_point strict neg lead e : 0 <= lead < 16 -> Z.abs e < 10 ^ 4 ->
  hex_body strict neg (hex_char lead :: p :: esign e :: dec_digits 4 (Z.abs e)) = Some (scaled neg lead 0 e).
Proof.
  intros Hl He. unfold hex_body. change (hex_char lead :: p :: esign e :: dec_digits 4 (Z.abs e)) with ([hex_char lead] ++ p :: esign e :: dec_digits 4 (Z.abs e)).
  rewrite (span_all is_hex [hex_char lead] (p :: esign e :: dec_digits 4 (Z.abs e))); [|constructor; [apply is_hex_char; exact Hl|constructor]|reflexivity].
  change (Ascii.eqb p ".") with false. cbn match. cbn [Datatypes.app]. change (Ascii.eqb p "p") with true. cbn match.
  assert (SG : sign (esign e :: dec_digits 4 (Z.abs e)) = (e <? 0, dec_digits 4 (Z.abs e))) by (unfold esign; destruct (e <? 0); reflexivity).
  rewrite SG. pose proof (span_all is_dec (dec_digits 4 (Z.abs e)) [] (dec_digits_dec 4 _) I) as SD. rewrite app_nil_r in SD. rewrite SD.
  pose proof (dec_digits_nonempty (Z.abs e)) as NE. destruct (dec_digits 4 (Z.abs e)) as [|c0 r0] eqn:ED; [congruence|]. rewrite <- ED.
  rewrite dec_digits_number by (split; [lia|exact He]).
  replace (number 16 [hex_char lead]) with lead by (unfold number; cbn [fold_left]; rewrite digit_char by exact Hl; lia).
  do 2 f_equal. destruct (Z.ltb_spec e 0); cbn [signed]; lia.
Qed.
Lemma printf_value d v : binary64 d -> value d = Some v ->
  solid (printf_a d) /\ exists u, fromhex (string_of_list_ascii (printf_a d)) = Some u /\ (u == v)%Q.
Proof.
  intros B E. destruct d as [neg|neg lead fr e|neg|]; try discriminate E; injection E as <-.
  - split; [destruct neg; (split; [discriminate|cbv; repeat constructor])|]. destruct neg; (eexists; split; [reflexivity|reflexivity]).
  - destruct B as (Hf & HB). assert (HL : 0 <= lead < 16) by lia. assert (He : Z.abs e < 10 ^ 4) by lia.
    destruct (short_split (hex_digits 13 fr)) as (fs & k & ES & SH).
    assert (FH : Forall (fun c => is_hex c = true) fs) by (pose proof (hex_digits_hex 13 fr) as X; rewrite ES in X; apply Forall_app in X; apply X).
    assert (EL : printf_a (DFinite neg lead fr e) = minus neg ++ "0"%char :: "x"%char :: hex_char lead :: short (hex_digits 13 fr) ++ p :: esign e :: dec_digits 4 (Z.abs e)).
    { unfold printf_a, esign, p. reflexivity. }
    rewrite EL. split.
    + apply not_blank_number; [exact HL|]. rewrite SH. destruct fs as [|c fs]; [constructor|]. constructor; [right; reflexivity|]. eapply Forall_impl; [|exact FH]. intros x X. left. exact X.
    + unfold fromhex. rewrite list_ascii_of_string_of_list_ascii.
      assert (BV : hex_body false neg (hex_char lead :: short (hex_digits 13 fr) ++ p :: esign e :: dec_digits 4 (Z.abs e)) =
        Some (scaled neg (lead * 16 ^ Z.of_nat (length fs) + number 16 fs) (Z.of_nat (length fs)) e)).
      { rewrite SH. destruct fs as [|c fs].
        - cbn [Datatypes.app length]. rewrite body_without_point by assumption. change (number 16 []) with 0. change (Z.of_nat 0) with 0. rewrite Z.pow_0_r, Z.mul_1_r, Z.add_0_r. reflexivity.
        - apply body_value; assumption. }
      exists (scaled neg (lead * 16 ^ Z.of_nat (length fs) + number 16 fs) (Z.of_nat (length fs)) e). split; [|eapply scaled_short; eassumption].
      destruct neg; cbn [minus Datatypes.app sign Ascii.eqb Bool.eqb without_0x andb]; exact BV.
Qed.
Lemma parse_solid t q : solid t -> fromhex (string_of_list_ascii t) = Some q -> parse t = Some (Fin (Q2R q)).
Proof. intros (_ & F) E. unfold parse. rewrite strip_solid by exact F. rewrite E. reflexivity. Qed.
Lemma parse_tokens : forall ts vs, Forall2 (fun t v => parse t = Some (Fin v)) ts vs -> parse_all ts = Some (map Fin vs).
Proof. intros ts vs F. induction F as [|t v ts vs E F IH]; [reflexivity|]. cbn [parse_all map]. rewrite E, IH. reflexivity. Qed.
Lemma python_token d x : finite d x -> solid (list_ascii_of_string (data2c d)) /\ parse (list_ascii_of_string (data2c d)) = Some (Fin x).
Proof.
  intros (B & v & E & <-). pose proof (data2c_solid d v B E) as S. split; [exact S|]. destruct (literal_exact d v B E) as (_ & u & F & EQ).
  rewrite (parse_solid _ u S); [do 2 f_equal; apply Qeq_eqR; exact EQ|]. rewrite string_of_list_ascii_of_string. exact F.
Qed.
Lemma c_token d x : finite d x -> solid (printf_a d) /\ parse (printf_a d) = Some (Fin x).
Proof.
  intros (B & v & E & <-). destruct (printf_value d v B E) as (S & u & F & EQ). split; [exact S|].
  rewrite (parse_solid _ u S F). do 2 f_equal. apply Qeq_eqR. exact EQ.
Qed.
Section Reading.
  Context (float32 : fl -> fl) (precision : string).
  Notation kept_by_precision := (exact_in float32 precision).
  Lemma rounded xs : Forall kept_by_precision xs -> (if String.eqb precision "float" then map float32 (map Fin xs) else map Fin xs) = map Fin xs.
  Proof.
    intros F. destruct (String.eqb_spec precision "float") as [E|N]; [|reflexivity]. induction F as [|x xs H F IH]; [reflexivity|]. cbn [map]. rewrite IH, (H E). reflexivity.
  Qed.
  Lemma python_line_reads ds xs : Forall2 finite ds xs -> Forall kept_by_precision xs -> line_reads float32 precision (python_line ds) xs.
  Proof.
    intros F K. unfold line_reads, preprocess_line, python_line. rewrite list_ascii_of_string_of_list_ascii.
    change (fun t => match strip t with [] => false | _ => true end) with kept.
    rewrite (join_tokens (map (fun d => list_ascii_of_string (data2c d)) ds) [" "%char; newline]).
    - change (filter kept (split_on " " [" "%char; newline])) with (@nil (list ascii)). rewrite app_nil_r.
      rewrite (parse_tokens _ xs); [rewrite rounded by exact K; reflexivity|]. induction F as [|d x ds xs H F IH]; constructor; [apply python_token; exact H|apply IH; inversion K; assumption].
    - clear K. induction F as [|d x ds xs H F IH]; constructor; [apply (python_token d x); exact H|exact IH].
  Qed.
  Lemma c_line_reads ds xs : Forall2 finite ds xs -> Forall kept_by_precision xs -> line_reads float32 precision (c_line ds) xs.
  Proof.
    intros F K. unfold line_reads, preprocess_line, c_line. rewrite list_ascii_of_string_of_list_ascii.
    change (fun t => match strip t with [] => false | _ => true end) with kept.
    replace (flat_map (fun d => printf_a d ++ [" "%char]) ds) with (flat_map (fun t => t ++ [" "%char]) (map printf_a ds)) by (rewrite !flat_map_concat_map, map_map; reflexivity).
    rewrite blank_tokens.
    - change (filter kept (split_on " " [newline])) with (@nil (list ascii)). rewrite app_nil_r.
      rewrite (parse_tokens _ xs); [rewrite rounded by exact K; reflexivity|]. induction F as [|d x ds xs H F IH]; constructor; [apply c_token; exact H|apply IH; inversion K; assumption].
    - clear K. induction F as [|d x ds xs H F IH]; constructor; [apply (c_token d x); exact H|exact IH].
  Qed.
End Reading.
