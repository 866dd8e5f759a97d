(** * C82: numbers written in decimal (to_hex = False; the debugging file). *)
From Coq Require Import String Ascii.
From Coq Require Import ZArith List Lia Bool Reals Lra Classical Permutation Sorting.Sorted.
From Flocq Require Import Core Digits.
From Verif Require Import CMem Compare CompareProofs Debug DebugProofs PropertiesDebug.
From Verif Require Import HexLit HexLitProofs FloatFormats Decimal DecimalProofs.
Import ListNotations.
Open Scope list_scope.
Open Scope Z_scope.
Local Notation "'chars' s" := (list_ascii_of_string s) (at level 9).

(** A parameter written with Python's repr ([l]) is a C floating constant, and a C
    compiler, like Python's float(), reads it as the number itself; as an element of
    an array of float it is the number too when the number is a binary32 one. *)
Theorem C82_constants : forall neg m e l,
  0 <= m -> in_binary64 (dyadic neg m e) -> repr_text neg m e l ->
  exists y, c_exactly l = Some y /\ exactly l = Some y /\ to_binary64 y = dyadic neg m e /\
    (in_binary32 (dyadic neg m e) -> to_binary32 (to_binary64 y) = dyadic neg m e).
Proof.
  intros neg m e l Hm F H.
  assert (W : exists y, c_exactly l = Some y /\ exactly l = Some y /\ to_binary64 y = dyadic neg m e).
  { unfold repr_text in H. destruct (Z.eqb_spec m 0) as [->|NZ].
    - subst l. exists (decimal_value neg 0 1 0). split; [destruct neg; reflexivity|]. split; [destruct neg; reflexivity|].
      unfold decimal_value, dyadic. replace (signed neg 0) with 0 by (destruct neg; reflexivity). rewrite !Rmult_0_l. apply (@nearest_0 53 (-1074)).
    - destruct H as (D & P & X & HP & B & -> & R & _). destruct (repr_value neg D P X HP B) as [E1 E2]. eauto. }
  destruct W as (y & E1 & E2 & E3). exists y. repeat split; try assumption. intros F32. rewrite E3. apply round_generic; [typeclasses eauto|exact F32].
Qed.
Print Assumptions C82_constants.

(** Every number has such a text, of at most 17 significant digits. *)
Theorem C82_constants_exist : forall neg m e,
  0 <= m -> in_binary64 (dyadic neg m e) -> exists l, repr_text neg m e l.
Proof.
  intros neg m e Hm F. unfold repr_text. destruct (Z.eqb_spec m 0) as [_|NZ]; [eauto|].
  set (good := fun P => exists D X, 10 ^ (P - 1) <= D < 10 ^ P /\ to_binary64 (decimal_float neg D P X) = dyadic neg m e).
  assert (G17 : good 17).
  { destruct (digits_of 17 (numerator m e) (denominator e)) as [D X] eqn:E. destruct (decimal_close neg 17 m e D X ltac:(lia) ltac:(lia) E) as [B R].
    exists D, X. split; [exact B|]. apply close_64; [exact F|exact R]. }
  assert (LEAST : forall n, (exists P, 1 <= P <= Z.of_nat n /\ good P) -> exists P, 1 <= P /\ good P /\ forall P', 1 <= P' -> good P' -> P <= P').
  { induction n as [|n IH]; intros (P & B & G); [lia|]. destruct (classic (exists P, 1 <= P <= Z.of_nat n /\ good P)) as [C|C]; [exact (IH C)|].
    exists P. split; [lia|]. split; [exact G|]. intros P' L G'. destruct (Z_le_gt_dec P P'); [assumption|]. exfalso. apply C. exists P'. split; [lia|exact G']. }
  destruct (LEAST 17%nat ltac:(exists 17; split; [lia|exact G17])) as (P & LP & (D & X & B & R) & MIN).
  exists (repr_of neg (strip (dec_digits (Z.to_nat P) D)) X). exists D, P, X. repeat split; try apply B; auto.
  intros D' P' X' LP' B' R'. apply MIN; [exact LP'|]. exists D', X'. auto.
Qed.
Print Assumptions C82_constants_exist.

(** Two different numbers are never written alike. *)
Theorem C82_constants_injective : forall neg m e neg' m' e' l,
  0 <= m -> 0 <= m' -> in_binary64 (dyadic neg m e) -> in_binary64 (dyadic neg' m' e') ->
  repr_text neg m e l -> repr_text neg' m' e' l -> dyadic neg m e = dyadic neg' m' e'.
Proof.
  intros neg m e neg' m' e' l H H' F F' R R'. destruct (C82_constants _ _ _ _ H F R) as (y & E & _ & Y & _). destruct (C82_constants _ _ _ _ H' F' R') as (y' & E' & _ & Y' & _).
  congruence.
Qed.
Print Assumptions C82_constants_injective.

(** 0.3, that is 5404319552844595 * 2^-54. *)
Lemma format_64 neg m e : Z.abs m < 2 ^ 53 -> -1074 <= e -> in_binary64 (dyadic neg m e).
Proof. intros B L. apply generic_format_FLT. exists (Float radix2 (signed neg m) e); [reflexivity| |exact L]. cbn. destruct neg; unfold signed; lia. Qed.
Lemma format_32 neg m e : Z.abs m < 2 ^ 24 -> -149 <= e -> in_binary32 (dyadic neg m e).
Proof. intros B L. apply generic_format_FLT. exists (Float radix2 (signed neg m) e); [reflexivity| |exact L]. cbn. destruct neg; unfold signed; lia. Qed.
Example C82_constants_example :
  in_binary64 (dyadic false 5404319552844595 (-54)) /\ repr_text false 5404319552844595 (-54) (chars "0.3").
Proof.
  assert (F : in_binary64 (dyadic false 5404319552844595 (-54))) by (apply format_64; [reflexivity|discriminate]). split; [exact F|].
  unfold repr_text. exists 3, 1, (-1). split; [lia|]. split; [lia|]. split; [reflexivity|]. split; [|intros; lia].
  apply close_64; [exact F|]. unfold decimal_float, dyadic, signed. change (bpow radix10 (-1 - 1 + 1)) with (/ 10)%R. change (bpow radix10 (-16)) with (/ 10000000000000000)%R.
  change (bpow radix2 (-54)) with (/ 18014398509481984)%R. rewrite (Rabs_pos_eq (5404319552844595 * _)) by lra. apply Rabs_le. lra.
Qed.

(** ** The debugging file: "%.9g" of a binary32 number is read back as the number. *)
Theorem C82_debug_float : forall neg m e,
  0 <= m -> in_binary32 (dyadic neg m e) ->
  exists y, exactly (printf_g 9 neg m e) = Some y /\ to_binary32 (to_binary64 y) = dyadic neg m e.
Proof. intros neg m e Hm F. destruct (printf_value 9 neg m e ltac:(lia) Hm) as (y & E & C). exists y. split; [exact E|]. apply close_32; assumption. Qed.
Print Assumptions C82_debug_float.

(** The whole file: C77's reading of the file with "%.9g" as it is, for any tensors
    of binary32 numbers. *)
Lemma dec_blank c : is_dec c = true -> blank c = false.
Proof. intros H. destruct c as [b0 b1 b2 b3 b4 b5 b6 b7]. destruct b0, b1, b2, b3, b4, b5, b6, b7; try reflexivity; discriminate H. Qed.
Lemma dec_unbroken l : dec l -> unbroken l.
Proof. intros H. eapply Forall_impl; [|exact H]. intros c. apply dec_blank. Qed.
Lemma minus_unbroken neg : unbroken (minus neg).
Proof. destruct neg; repeat constructor. Qed.
Lemma sub_dec (f : nat -> list ascii -> list ascii) n l : (forall c, In c (f n l) -> In c l) -> dec l -> dec (f n l).
Proof. unfold dec. rewrite !Forall_forall. auto. Qed.
Lemma positional_unbroken ds X : dec ds -> unbroken (positional [] ds X).
Proof.
  intros D. unfold positional. destruct (X <? 0).
  - apply Forall_app. split; [repeat constructor|]. apply dec_unbroken. apply Forall_app. split; [apply zeros_dec|exact D].
  - rewrite <- (firstn_skipn (Z.to_nat (X + 1)) ds) in D. apply Forall_app in D. destruct D as [D1 D2]. apply Forall_app. split; [apply dec_unbroken; exact D1|].
    apply Forall_app. split; [apply dec_unbroken, zeros_dec|]. destruct (skipn _ ds); [constructor|]. constructor; [reflexivity|apply dec_unbroken; exact D2].
Qed.
Lemma scientific_unbroken ds X : dec ds -> unbroken (scientific ds X).
Proof.
  intros D. unfold scientific. rewrite <- (firstn_skipn 1 ds) in D. apply Forall_app in D. destruct D as [D1 D2]. apply Forall_app. split; [apply dec_unbroken; exact D1|].
  apply Forall_app. split; [destruct (skipn 1 ds); [constructor|]; constructor; [reflexivity|apply dec_unbroken; exact D2]|].
  constructor; [reflexivity|]. constructor; [destruct (X <? 0); reflexivity|]. apply dec_unbroken, two_digits_dec.
Qed.
Lemma printf_unbroken P neg m e : 1 <= P -> 0 <= m -> unbroken (printf_g P neg m e).
Proof.
  intros HP Hm. unfold printf_g. apply Forall_app. split; [apply minus_unbroken|]. destruct (Z.eqb_spec m 0) as [_|NZ]; [repeat constructor|].
  destruct (digits_of P (numerator m e) (denominator e)) as [D X] eqn:E. destruct (decimal_close neg P m e D X HP ltac:(lia) E) as [B _].
  destruct (stripped_value neg P D X HP B) as (S1 & _). destruct (_ && _); [apply positional_unbroken|apply scientific_unbroken]; exact S1.
Qed.
Lemma debug_survives x : in_binary32 x -> survives debug_text debug_read x.
Proof.
  intros F. unfold debug_text, debug_read. set (m := Ztrunc (scaled_mantissa radix2 (FLT_exp (-149) 24) x)). set (e := cexp radix2 (FLT_exp (-149) 24) x).
  assert (EX : x = dyadic (m <? 0) (Z.abs m) e).
  { transitivity (F2R (Float radix2 m e)); [exact F|]. unfold dyadic, F2R, signed. cbn [Fnum Fexp]. destruct (Z.ltb_spec m 0); do 2 f_equal; lia. }
  rewrite EX in F. destruct (C82_debug_float _ _ _ (Z.abs_nonneg m) F) as (y & E & Y). split; [|split].
  - cbv beta zeta. fold m e. intros E0. rewrite E0 in E. discriminate E.
  - cbv beta zeta. fold m e. apply printf_unbroken; lia.
  - cbv beta zeta. fold m e. rewrite E. cbn [option_map]. rewrite Y, <- EX. reflexivity.
Qed.
Theorem C82_debug_file : forall name channels (val : nat -> list R) layers,
  (forall n, unbroken (name n)) -> NoDup layers ->
  (forall n C H W, channels n = Some (C, H, W) -> 0 <= C /\ 0 <= H /\ 0 <= W) ->
  (forall n, In n layers -> val n <> [] /\ Forall in_binary32 (val n) /\ forall C H W, channels n = Some (C, H, W) -> zlen (val n) = C * H * W) ->
  exists sorted, Permutation layers sorted /\ StronglySorted lt sorted /\
    extract_outputs_c 0%R debug_read (debug_file name channels debug_text (map (fun n => (n, val n)) layers)) (zlen layers) =
      Some (map (fun n => flat 0%R channels n (val n)) sorted, map (fun n => label (name n) n) sorted).
Proof.
  intros name channels val layers NM ND CH OK.
  destruct (C77_file_read_back 0%R name channels debug_text debug_read val layers NM ND CH) as (so & P & S & E & _); [|exists so; auto].
  intros n Hn. destruct (OK n Hn) as (A & B & C). split; [exact A|]. split; [|exact C]. eapply Forall_impl; [|exact B]. exact debug_survives.
Qed.
Print Assumptions C82_debug_file.
(** 0.1 in binary32. *)
Example C82_debug_example : in_binary32 (dyadic true 13421773 (-27)) /\ printf_g 9 true 13421773 (-27) = chars "-0.100000001" /\
  printf_g 9 false 1 (-149) = chars "1.40129846e-45" /\ printf_g 9 false 16777215 104 = chars "3.40282347e+38" /\
  printf_g 9 false 3 3 = chars "24".
Proof. split; [apply format_32; [reflexivity|discriminate]|]. repeat split; vm_compute; reflexivity. Qed.

(** Nine digits are not enough for data_type double: 1 and 1 + 2^-52. *)
Theorem C82_debug_double_refuted : exists m e m' e',
  in_binary64 (dyadic false m e) /\ in_binary64 (dyadic false m' e') /\ dyadic false m e <> dyadic false m' e' /\
  printf_g 9 false m e = printf_g 9 false m' e'.
Proof.
  exists 1, 0, (2 ^ 52 + 1), (-52). split; [apply format_64; [reflexivity|discriminate]|]. split; [apply format_64; [reflexivity|discriminate]|]. split; [|vm_compute; reflexivity].
  unfold dyadic, signed. change (bpow radix2 0) with 1%R. change (bpow radix2 (-52)) with (/ 4503599627370496)%R. change (2 ^ 52 + 1) with 4503599627370497. lra.
Qed.

(** ** The output file, "%9g": six digits. *)
Theorem C82_output_partial : forall neg m e,
  0 <= m ->
  exists blanks word y, padded 9 (printf_g 6 neg m e) = repeat " "%char blanks ++ word /\ unbroken word /\
    exactly word = Some y /\ (Rabs (y - dyadic neg m e) <= 5 / 1000000 * Rabs (dyadic neg m e))%R.
Proof.
  intros neg m e Hm. destruct (printf_value 6 neg m e ltac:(lia) Hm) as (y & E & C). do 2 eexists. exists y. split; [reflexivity|]. split; [apply printf_unbroken; lia|]. split; [exact E|].
  change (bpow radix10 (1 - 6)) with (/ 100000)%R in C. replace (5 / 1000000)%R with (/ 2 * / 100000)%R by lra. exact C.
Qed.
Print Assumptions C82_output_partial.
(** The output file does not determine the outputs, even those of data_type float. *)
Theorem C82_output_refuted : exists m e m' e',
  in_binary32 (dyadic false m e) /\ in_binary32 (dyadic false m' e') /\ dyadic false m e <> dyadic false m' e' /\
  padded 9 (printf_g 6 false m e) = chars "        1" /\ padded 9 (printf_g 6 false m' e') = chars "        1".
Proof.
  exists 1, 0, (2 ^ 23 + 1), (-23). split; [apply format_32; [reflexivity|discriminate]|]. split; [apply format_32; [reflexivity|discriminate]|]. split; [|split; vm_compute; reflexivity].
  unfold dyadic, signed. change (bpow radix2 0) with 1%R. change (bpow radix2 (-23)) with (/ 8388608)%R. change (2 ^ 23 + 1) with 8388609. lra.
Qed.
