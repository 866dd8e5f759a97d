(** * C75: acetone_compare reports the errors between two output files. *)
From Coq Require Import String Ascii.
From Coq Require Import ZArith List Lia Bool QArith Qpower Reals Qreals Lra.
Import ListNotations.
Open Scope list_scope.
Open Scope Z_scope.
From Verif Require Import HexLit HexLitProofs Compare CompareProofs.

Lemma same_length {A B} (r : A -> B -> Prop) l1 l2 : Forall2 r l1 l2 -> length l1 = length l2.
Proof. intros F. induction F; cbn; congruence. Qed.
(** The Python inference wrote the outputs [P], the C program the outputs [C],
    [nb] lines of finite numbers each (to_hex): the command reports the greatest
    absolute and relative errors over all the values, and the function returns
    True exactly when all the values are similar. *)
Theorem C75_reports_the_errors_partial :
  forall (float32 : fl -> fl) (precision : string) (P C : list (list double)) (VP VC : list (list R)) (nb : Z),
    Forall2 (Forall2 finite) P VP -> Forall2 (Forall2 finite) C VC -> same_shape VP VC ->
    Forall (Forall (exact_in float32 precision)) VP -> Forall (Forall (exact_in float32 precision)) VC ->
    Z.of_nat (length P) = nb ->
    exists ok d r, compare_files float32 (map python_line P) (map c_line C) nb precision = Some (ok, Fin d, Fin r) /\
      printed float32 (map python_line P) (map c_line C) nb precision = Some (Fin d, Fin r) /\
      greatest absolute_error (places VP VC) d /\ greatest relative_error (places VP VC) r /\
      (ok = true <-> forall a b, In (a, b) (places VP VC) -> similar a b).
Proof.
  intros float32 precision P C VP VC nb HP HC SS KP KC EN.
  assert (RP : Forall2 (line_reads float32 precision) (map python_line P) VP).
  { clear HC SS EN. induction HP as [|ds xs P VP H HP IH]; constructor; inversion KP; subst; [apply python_line_reads; assumption|apply IH; assumption]. }
  assert (RC : Forall2 (line_reads float32 precision) (map c_line C) VC).
  { clear HP SS EN RP. induction HC as [|ds xs C VC H HC IH]; constructor; inversion KC; subst; [apply c_line_reads; assumption|apply IH; assumption]. }
  assert (LP : length VP = length P) by (symmetry; eapply same_length; exact HP).
  assert (LC : length VC = length VP) by (symmetry; eapply same_length; exact SS).
  assert (F : forall L : list (list R), length L = length P -> firstn (Z.to_nat (nb + 1)) L = L) by (intros L HL; apply firstn_all2; lia).
  destruct (files_fin float32 precision _ _ VP VC nb RP RC) as (ok & d & r & E & G1 & G2 & S).
  - rewrite !F by congruence. clear -SS. induction SS; constructor; [lia|assumption].
  - rewrite !F in G1, G2, S by congruence. exists ok, d, r. split; [exact E|]. split; [unfold printed; rewrite E; reflexivity|]. auto.
Qed.
Print Assumptions C75_reports_the_errors_partial.

(** In general: for two readable files of finite values, what is compared is
    the first [nb + 1] lines (not [nb]), when they have the same shape. *)
Theorem C75_what_is_compared :
  forall (float32 : fl -> fl) (precision : string) (f1 f2 : list string) (L1 L2 : list (list R)) (nb : Z),
    Forall2 (fun line l => preprocess_line float32 line precision = Some (map Fin l)) f1 L1 ->
    Forall2 (fun line l => preprocess_line float32 line precision = Some (map Fin l)) f2 L2 ->
    let k := Z.to_nat (nb + 1) in
    same_shape (firstn k L1) (firstn k L2) ->
    exists ok d r, compare_files float32 f1 f2 nb precision = Some (ok, Fin d, Fin r) /\
      greatest absolute_error (places (firstn k L1) (firstn k L2)) d /\ greatest relative_error (places (firstn k L1) (firstn k L2)) r /\
      (ok = true <-> forall a b, In (a, b) (places (firstn k L1) (firstn k L2)) -> similar a b).
Proof.
  intros float32 precision f1 f2 L1 L2 nb R1 R2 k SS. apply (files_fin float32 precision f1 f2 L1 L2 nb R1 R2). fold k.
  clearbody k. induction SS as [|a b r s H SS IH]; constructor; [rewrite H; apply Nat.le_refl|exact IH].
Qed.
Print Assumptions C75_what_is_compared.

(** ** What the report hides. *)
(** A missing output (the program wrote nothing) is an error of zero. *)
Theorem C75_missing_lines_refuted : forall float32 precision nb (f : list string),
  compare_files float32 f [] nb precision = Some (true, Fin 0, Fin 0) /\ printed float32 f [] nb precision = Some (Fin 0, Fin 0).
Proof. intros float32 precision nb [|line f]; split; reflexivity. Qed.
Print Assumptions C75_missing_lines_refuted.
Lemma zero_floats : compare_floats (Fin 0) (Fin 0) = (true, Fin 0, Fin 0).
Proof.
  unfold compare_floats. cbn [feq fsub fabs]. destruct (Req_EM_T 0 0) as [_|X]; [|congruence]. do 2 f_equal. f_equal. rewrite Rminus_0_r. apply Rabs_R0.
Qed.
(** A NaN output followed by a right one: the reported errors are those of the
    other values; only the returned boolean, which the command ignores, tells. *)
Theorem C75_nan_refuted : forall l1 l2 b x y ok, length l1 = length l2 ->
  exists c d r c', compare_values (NaN :: Fin x :: map Fin l1) (b :: Fin y :: map Fin l2) ok (Fin 0) (Fin 0) = Some (c, Fin d, Fin r) /\
    compare_values (Fin x :: map Fin l1) (Fin y :: map Fin l2) ok (Fin 0) (Fin 0) = Some (c', Fin d, Fin r).
Proof.
  intros l1 l2 b x y ok H. destruct (floats_fin x y) as (c0 & E & _).
  assert (EN : compare_floats NaN b = (false, NaN, NaN)) by (destruct b as [z|[|]|]; reflexivity).
  cbn [compare_values]. rewrite EN, E.
  change (pmax NaN (Fin 0)) with NaN. change (pmax (Fin (absolute_error x y)) NaN) with (Fin (absolute_error x y)). change (pmax (Fin (relative_error x y)) NaN) with (Fin (relative_error x y)).
  rewrite !pmax_fin. rewrite (Rmax_left (absolute_error x y) 0) by apply absolute_nonneg. rewrite (Rmax_left (relative_error x y) 0) by apply relative_nonneg.
  destruct (values_fin l1 l2 (c0 && (false && ok)) (absolute_error x y) (relative_error x y) ltac:(lia)) as (c1 & E1 & _). rewrite E1.
  destruct (values_fin l1 l2 (c0 && ok) (absolute_error x y) (relative_error x y) ltac:(lia)) as (c2 & E2 & _). rewrite E2.
  eexists _, _, _, _. split; reflexivity.
Qed.
Print Assumptions C75_nan_refuted.
Example C75_nan_example : forall float32, printed float32 ["nan 0x0p+0 "%string] ["0x1p+3 0x0p+0 "%string] 1 "double" = Some (Fin 0, Fin 0).
Proof.
  intros float32. unfold printed, compare_files. cbn [compare_from]. change (0 <? 1 + 1) with true. cbn match. unfold compare_lines.
  change (preprocess_line float32 "nan 0x0p+0 " "double") with (Some [NaN; Fin (Q2R (scaled false 0 0 0))]).
  change (preprocess_line float32 "0x1p+3 0x0p+0 " "double") with (Some [Fin (Q2R (scaled false 1 0 3)); Fin (Q2R (scaled false 0 0 0))]).
  replace (Q2R (scaled false 0 0 0)) with 0%R by (symmetry; unfold scaled; replace 0%R with (Q2R 0) by (unfold Q2R; cbn; lra); apply Qeq_eqR; reflexivity).
  cbn [compare_values]. rewrite zero_floats. change (compare_floats NaN (Fin (Q2R (scaled false 1 0 3)))) with (false, NaN, NaN). cbn match.
  change (pmax NaN (Fin 0)) with NaN. change (pmax (Fin 0) NaN) with (Fin 0). change (0 =? 1) with false. cbn match. cbn [compare_from].
  rewrite !pmax_fin, Rmax_left by lra. reflexivity.
Qed.
(** One more line than asked for is compared. *)
Theorem C75_one_line_too_many_refuted : forall float32, exists d r,
  printed float32 ["0x0p+0 "; "0x0p+0 "]%string ["0x0p+0 "; "0x1p+0 "]%string 1 "double" = Some (Fin d, r) /\ d = 1%R.
Proof.
  intros float32. pose proof (C75_what_is_compared float32 "double" ["0x0p+0 "; "0x0p+0 "]%string ["0x0p+0 "; "0x1p+0 "]%string [[Q2R (scaled false 0 0 0)]; [Q2R (scaled false 0 0 0)]] [[Q2R (scaled false 0 0 0)]; [Q2R (scaled false 1 0 0)]] 1) as T.
  destruct T as (ok & d & r & E & (U & A) & _); [repeat constructor|repeat constructor|repeat constructor|].
  exists d, (Fin r). split; [unfold printed; rewrite E; reflexivity|].
  assert (Z0 : Q2R (scaled false 0 0 0) = 0%R) by (unfold scaled; replace 0%R with (Q2R 0) by (unfold Q2R; cbn; lra); apply Qeq_eqR; reflexivity).
  assert (Z1 : Q2R (scaled false 1 0 0) = 1%R) by (unfold scaled; replace 1%R with (Q2R 1) by (unfold Q2R; cbn; lra); apply Qeq_eqR; reflexivity).
  rewrite Z0, Z1 in U, A. change (Z.to_nat (1 + 1)) with 2%nat in *. cbn [firstn places combine Datatypes.app] in U, A.
  assert (E1 : absolute_error 0 1 = 1%R) by (unfold absolute_error; rewrite Rabs_left by lra; lra).
  assert (E0 : absolute_error 0 0 = 0%R) by (unfold absolute_error; rewrite Rminus_0_r; apply Rabs_R0).
  pose proof (U 0%R 1%R ltac:(right; left; reflexivity)) as U1. rewrite E1 in U1.
  destruct A as [(X & _)|(a & b & [I|[I|[]]] & X)]; [discriminate| |]; injection I as <- <-; lra.
Qed.
Print Assumptions C75_one_line_too_many_refuted.
(** Additional values of the second file are not looked at. *)
Theorem C75_additional_values_refuted : forall l extra, exists r,
  compare_values (map Fin l) (map Fin (l ++ extra)) true (Fin 0) (Fin 0) = Some (true, Fin 0, r).
Proof.
  intros l extra. destruct (values_fin l (l ++ extra) true 0 0 ltac:(rewrite app_length; lia)) as (c & E & HC). rewrite E.
  assert (EC : combine l (l ++ extra) = combine l l) by (clear; induction l as [|x l IH]; [reflexivity|cbn; rewrite IH; reflexivity]).
  assert (SAME : forall a b, In (a, b) (combine l l) -> a = b).
  { clear. induction l as [|x l IH]; cbn; [intros ? ? []|]. intros a b [X|X]; [congruence|apply IH; exact X]. }
  rewrite EC in *. assert (c = true) by (apply HC; split; [reflexivity|]; intros a b I; left; apply SAME; exact I). subst c.
  destruct (fold_max_greatest absolute_error (combine l l) absolute_nonneg) as (_ & [(EL & ->)|(a & b & I & <-)]).
  - eexists. reflexivity.
  - apply SAME in I. subst b. unfold absolute_error. replace (a - a)%R with 0%R by ring. rewrite Rabs_R0. eexists. reflexivity.
Qed.
Print Assumptions C75_additional_values_refuted.
(** Decimal outputs (to_hex = False) are read as hexadecimal ones: 10.0 is 16. *)
Theorem C75_decimals_refuted : forall float32, exists x,
  preprocess_line float32 "10.0 " "double" = Some [Fin x] /\ x = 16%R.
Proof.
  intros float32. exists (Q2R (scaled false 256 1 0)). split; [reflexivity|].
  unfold scaled. replace 16%R with (Q2R 16) by (unfold Q2R; cbn; lra). apply Qeq_eqR. reflexivity.
Qed.
Print Assumptions C75_decimals_refuted.

(** ** Example: two lines of outputs. *)
Example C75_example :
  let P := [[DFinite true 1 (16 ^ 12 * 5) (-12); DZero false]; [DFinite false 1 0x999999999999a (-4); DFinite false 0 1 (-1022)]] in
  python_line (nth 0 P []) = String.append "-0x1.500000p-12 0x0.0p+0  " (string_of_list_ascii [newline]) /\
  c_line (nth 0 P []) = String.append "-0x1.5p-12 0x0p+0 " (string_of_list_ascii [newline]) /\
  exists VP, Forall2 (Forall2 finite) P VP /\ same_shape VP VP /\ Forall (Forall (exact_in (fun x => x) "float")) VP /\ Z.of_nat (length P) = 2.
Proof.
  intros P. split; [reflexivity|]. split; [reflexivity|].
  exists (map (map (fun d => match value d with Some v => Q2R v | None => 0%R end)) P).
  assert (F : Forall2 (Forall2 finite) P (map (map (fun d => match value d with Some v => Q2R v | None => 0%R end)) P)).
  { unfold P. cbn [map]. repeat (constructor; try (split; [cbn; lia|eexists; split; [reflexivity|reflexivity]])); cbn; lia. }
  split; [exact F|]. split; [unfold same_shape; repeat constructor|]. split; [repeat constructor; intros _; reflexivity|reflexivity].
Qed.

(** Blanks of any kind and number around a number of a file are not read. *)
Lemma drop_blanks l t : Forall (fun c => blank c = true) l -> drop_blank (l ++ t) = drop_blank t.
Proof. induction 1 as [|c l H _ IH]; [reflexivity|]. cbn [app drop_blank]. rewrite H. exact IH. Qed.
Lemma drop_keeps t c l : drop_blank t = c :: l -> forall b, drop_blank (t ++ b) = (c :: l) ++ b.
Proof.
  induction t as [|x t IH]; cbn [drop_blank app]; [discriminate|]. destruct (blank x) eqn:E; [exact IH|]. intros X b. injection X as <- <-. reflexivity.
Qed.
Lemma drop_all t : drop_blank t = [] -> Forall (fun c => blank c = true) t.
Proof. induction t as [|x t IH]; [constructor|]. cbn [drop_blank]. destruct (blank x) eqn:E; [intros X; constructor; auto|discriminate]. Qed.
Theorem C75_blanks_ignored : forall before text after,
  Forall (fun c => blank c = true) before -> Forall (fun c => blank c = true) after ->
  parse (before ++ text ++ after) = parse text.
Proof.
  intros b t a HB HA. unfold parse. replace (strip (b ++ t ++ a)) with (strip t); [reflexivity|]. unfold strip. rewrite drop_blanks by exact HB.
  destruct (drop_blank t) as [|c l] eqn:E.
  - rewrite drop_blanks by (apply drop_all; exact E). rewrite <- (app_nil_r a). rewrite drop_blanks by exact HA. reflexivity.
  - rewrite (drop_keeps t c l E). rewrite (rev_app_distr (c :: l) a). rewrite drop_blanks; [reflexivity|]. apply Forall_rev. exact HA.
Qed.
Print Assumptions C75_blanks_ignored.
Example C75_blanks_example : parse (list_ascii_of_string "  0x1p+0 " ++ [newline]) = parse (list_ascii_of_string "0x1p+0").
Proof. apply (C75_blanks_ignored [" "; " "]%char (list_ascii_of_string "0x1p+0") [" "; newline]%char); repeat constructor. Qed.
