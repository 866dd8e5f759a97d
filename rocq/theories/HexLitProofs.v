(** * Proofs for C74: the constants written in the files are exact. *)
From Coq Require Import String Ascii.
From Coq Require Import ZArith List Lia Bool QArith Qpower Qfield.
Import ListNotations.
Open Scope list_scope.
Open Scope Z_scope.
From Verif Require Import HexLit.

Lemma digit_hex_char d : 0 <= d < 16 -> digit_of (hex_char d) = Some d.
Proof.
  intros H. assert (X : In d [0;1;2;3;4;5;6;7;8;9;10;11;12;13;14;15]).
  { cbn. lia. }
  cbn in X. repeat (destruct X as [<-|X]; [reflexivity|]). destruct X.
Qed.
Lemma is_hex_char d : 0 <= d < 16 -> is_hex (hex_char d) = true.
Proof. intros H. unfold is_hex. rewrite digit_hex_char by exact H. reflexivity. Qed.
Lemma is_dec_char d : 0 <= d < 10 -> is_dec (hex_char d) = true.
Proof. intros H. unfold is_dec. rewrite digit_hex_char by lia. apply Z.ltb_lt. lia. Qed.
Lemma digit_char d : 0 <= d < 16 -> digit (hex_char d) = d.
Proof. intros H. unfold digit. rewrite digit_hex_char by exact H. reflexivity. Qed.
Lemma number_app b l c : number b (l ++ [c]) = number b l * b + digit c.
Proof. unfold number. rewrite fold_left_app. reflexivity. Qed.
Lemma number_fold b : forall l v, fold_left (fun v c => v * b + digit c) l v = v * b ^ Z.of_nat (length l) + number b l.
Proof.
  induction l as [|c l IH]; intros v; [unfold number; cbn [fold_left length]; rewrite Z.pow_0_r; lia|].
  unfold number. cbn [fold_left length]. rewrite IH, (IH (0 * b + digit c)).
  rewrite Nat2Z.inj_succ, Z.pow_succ_r by lia. ring.
Qed.
Lemma number_concat b l1 l2 : number b (l1 ++ l2) = number b l1 * b ^ Z.of_nat (length l2) + number b l2.
Proof. unfold number at 1. rewrite fold_left_app. apply number_fold. Qed.
Lemma hex_digits_length n : forall v, length (hex_digits n v) = n.
Proof. induction n as [|n IH]; intros v; [reflexivity|]. cbn [hex_digits]. rewrite app_length, IH. cbn. lia. Qed.
Lemma hex_digits_hex n : forall v, Forall (fun c => is_hex c = true) (hex_digits n v).
Proof.
  induction n as [|n IH]; intros v; [constructor|]. cbn [hex_digits]. apply Forall_app. split; [apply IH|].
  constructor; [|constructor]. apply is_hex_char. apply Z.mod_pos_bound. lia.
Qed.
Lemma hex_digits_number n : forall v, 0 <= v < 16 ^ Z.of_nat n -> number 16 (hex_digits n v) = v.
Proof.
  induction n as [|n IH]; intros v H; [cbn in H; unfold number; cbn; lia|]. cbn [hex_digits]. rewrite number_app.
  rewrite Nat2Z.inj_succ, Z.pow_succ_r in H by lia.
  pose proof (Z.mod_pos_bound v 16 ltac:(lia)) as M. pose proof (Z.div_mod v 16 ltac:(lia)) as D.
  assert (0 <= v / 16 < 16 ^ Z.of_nat n).
  { split; [apply Z.div_pos; lia|]. apply Z.div_lt_upper_bound; lia. }
  rewrite IH by assumption. rewrite digit_char by lia. lia.
Qed.
Lemma dec_digits_dec n : forall v, Forall (fun c => is_dec c = true) (dec_digits n v).
Proof.
  induction n as [|n IH]; intros v; [constructor|]. cbn [dec_digits]. apply Forall_app. split; [destruct (v <? 10); [constructor|apply IH]|].
  constructor; [|constructor]. apply is_dec_char. apply Z.mod_pos_bound. lia.
Qed.
Lemma dec_digits_number n : forall v, 0 <= v < 10 ^ Z.of_nat n -> number 10 (dec_digits n v) = v.
Proof.
  induction n as [|n IH]; intros v H; [cbn in H; unfold number; cbn; lia|]. cbn [dec_digits]. rewrite number_app.
  rewrite Nat2Z.inj_succ, Z.pow_succ_r in H by lia.
  pose proof (Z.mod_pos_bound v 10 ltac:(lia)) as M. pose proof (Z.div_mod v 10 ltac:(lia)) as D.
  assert (0 <= v / 10 < 10 ^ Z.of_nat n).
  { split; [apply Z.div_pos; lia|]. apply Z.div_lt_upper_bound; lia. }
  rewrite digit_char by lia. destruct (Z.ltb_spec v 10) as [L|L].
  - rewrite Z.mod_small by lia. cbn. lia.
  - rewrite IH by assumption. lia.
Qed.
Lemma span_all p l r : Forall (fun c => p c = true) l -> match r with c :: _ => p c = false | [] => True end -> span p (l ++ r) = (l, r).
Proof.
  intros F H. induction F as [|c l E F IH].
  - destruct r as [|c r]; [reflexivity|]. cbn. rewrite H. reflexivity.
  - cbn. rewrite E, IH. reflexivity.
Qed.

(** ** str.replace of zeros before the only 'p'. *)
Definition p : ascii := "p"%char.
Definition zeros : list ascii := list_ascii_of_string "0000000".
Lemma pattern_eq : list_ascii_of_string "0000000p" = zeros ++ [p].
Proof. reflexivity. Qed.
Lemma starts_iff : forall pat l, starts_with pat l = true <-> exists r, l = pat ++ r.
Proof.
  induction pat as [|a pat IH]; intros l; [split; [intros _; exists l; reflexivity|reflexivity]|]. destruct l as [|b l]; cbn; [split; [discriminate|intros (r & E); discriminate]|].
  rewrite andb_true_iff, IH. split.
  - intros (E & r & ->). apply Ascii.eqb_eq in E. subst b. exists r. reflexivity.
  - intros (r & E). injection E as -> ->. split; [apply Ascii.eqb_refl|exists r; reflexivity].
Qed.
Lemma replace_none pat rep : forall f l, (forall a b, l = a ++ b -> b <> [] -> starts_with pat b = false) -> replace_in f pat rep l = l.
Proof.
  induction f as [|f IH]; intros l H; [reflexivity|]. destruct l as [|c r]; [reflexivity|]. cbn [replace_in].
  rewrite (H [] (c :: r) eq_refl) by discriminate. f_equal. apply IH. intros a b E. apply (H (c :: a) b). rewrite E. reflexivity.
Qed.
Lemma replace_skip pat rep y : forall x f, (forall a b, x = a ++ b -> b <> [] -> starts_with pat (b ++ y) = false) ->
  replace_in (length x + f) pat rep (x ++ y) = x ++ replace_in f pat rep y.
Proof.
  induction x as [|c x IH]; intros f H; [reflexivity|]. cbn [length Nat.add Datatypes.app replace_in]. change (c :: x ++ y) with ((c :: x) ++ y). rewrite (H [] (c :: x) eq_refl) by discriminate.
  f_equal. apply IH. intros a b E. apply (H (c :: a) b). rewrite E. reflexivity.
Qed.
(** Where a string with a single 'p' contains the pattern. *)
Lemma no_p_split (a b c d : list ascii) : ~ In p a -> ~ In p c -> a ++ p :: b = c ++ p :: d -> a = c /\ b = d.
Proof.
  revert c. induction a as [|x a IH]; intros c Ha Hc E.
  - destruct c as [|y c]; [injection E as ->; auto|]. injection E as <- _. exfalso. apply Hc. left. reflexivity.
  - destruct c as [|y c]; [injection E as -> _; exfalso; apply Ha; left; reflexivity|]. injection E as <- E.
    destruct (IH c) as (-> & ->); auto; intros X; [apply Ha|apply Hc]; right; exact X.
Qed.
Lemma zeros_no_p : ~ In p zeros.
Proof. cbn. intuition discriminate. Qed.
Lemma starts_pattern a b : ~ In p a -> starts_with (zeros ++ [p]) (a ++ p :: b) = true -> a = zeros.
Proof.
  intros Ha H. apply starts_iff in H. destruct H as (r & E). rewrite <- app_assoc in E. cbn [Datatypes.app] in E.
  apply no_p_split in E; [apply E|exact Ha|apply zeros_no_p].
Qed.
Lemma starts_no_p b : ~ In p b -> starts_with (zeros ++ [p]) b = false.
Proof.
  intros H. destruct (starts_with _ b) eqn:E; [|reflexivity]. apply starts_iff in E. destruct E as (r & ->). exfalso. apply H.
  apply in_or_app. left. apply in_or_app. right. left. reflexivity.
Qed.
Lemma replace_digits x e : ~ In p x -> ~ In p e ->
  (exists x', x = x' ++ zeros /\ replace (zeros ++ [p]) [p] (x ++ p :: e) = x' ++ p :: e) \/
  replace (zeros ++ [p]) [p] (x ++ p :: e) = x ++ p :: e.
Proof.
  intros Hx He. destruct (list_eq_dec ascii_dec (skipn (length x - 7) x) zeros) as [EZ|NZ].
  - left. exists (firstn (length x - 7) x). assert (E : x = firstn (length x - 7) x ++ zeros) by (rewrite <- EZ; symmetry; apply firstn_skipn).
    split; [exact E|]. set (x' := firstn (length x - 7) x) in *. clearbody x'. clear EZ. subst x. unfold replace.
    rewrite app_length, app_length. rewrite <- app_assoc. rewrite <- Nat.add_assoc. rewrite replace_skip.
    + f_equal. cbn [length Nat.add]. change (zeros ++ p :: e) with ("0"%char :: skipn 1 zeros ++ p :: e). change (length zeros + S (length e))%nat with (S (7 + length e)). cbn [replace_in].
      replace (starts_with _ _) with true by (symmetry; apply starts_iff; exists e; reflexivity).
      cbn [Datatypes.app]. f_equal. change (skipn _ _) with e. apply replace_none. intros a b -> _. apply starts_no_p. intros X. apply He. apply in_or_app. right. exact X.
    + intros a b -> NB. destruct (starts_with _ _) eqn:S; [|reflexivity]. exfalso. rewrite app_assoc in S. apply starts_pattern in S.
      * apply (f_equal (@length _)) in S. rewrite app_length in S. destruct b; [congruence|]. cbn in S. lia.
      * intros X. apply Hx. rewrite <- app_assoc. apply in_or_app. right. exact X.
  - right. apply replace_none. intros a b E NB. destruct (starts_with _ b) eqn:S; [|reflexivity]. exfalso.
    assert (IP : In p b). { apply starts_iff in S. destruct S as (r & ->). apply in_or_app. left. apply in_or_app. right. left. reflexivity. }
    (* b is a suffix of x followed by p e *)
    assert (X : exists y, x = a ++ y /\ b = y ++ p :: e).
    { clear S NB NZ. revert a E. induction x as [|c x IH]; intros a E.
      - destruct a as [|c' a]; [exists []; auto|]. exfalso. injection E as _ E. apply He. rewrite E. apply in_or_app. right. exact IP.
      - destruct a as [|c' a]; [exists (c :: x); auto|]. injection E as <- E. destruct (IH ltac:(intros X; apply Hx; right; exact X) a E) as (y & -> & ->). exists y. auto. }
    destruct X as (y & -> & ->). apply starts_pattern in S; [|intros X; apply Hx; apply in_or_app; right; exact X]. subst y. apply NZ.
    rewrite app_length. change (length zeros) with 7%nat. replace (length a + 7 - 7)%nat with (length a) by lia. rewrite skipn_app, skipn_all, Nat.sub_diag. reflexivity.
Qed.

(** ** The value of what is written. *)
Lemma not_p_hex l : Forall (fun c => is_hex c = true) l -> ~ In p l.
Proof. intros F X. rewrite Forall_forall in F. apply F in X. discriminate. Qed.
Lemma dec_no_p l : Forall (fun c => is_dec c = true) l -> ~ In p l.
Proof. intros F X. rewrite Forall_forall in F. apply F in X. discriminate. Qed.
Lemma dec_digits_nonempty v : dec_digits 4 v <> [].
Proof. cbn [dec_digits]. intros E. apply app_eq_nil in E. destruct E. discriminate. Qed.
Definition esign (e : Z) : ascii := if e <? 0 then "-"%char else "+"%char.
(** Reading lead . digits p exponent. *)
Lemma body_value strict neg lead fs e : 0 <= lead < 16 -> Forall (fun c => is_hex c = true) fs -> Z.abs e < 10 ^ 4 ->
  hex_body strict neg (hex_char lead :: "."%char :: fs ++ p :: esign e :: dec_digits 4 (Z.abs e)) =
  Some (scaled neg (lead * 16 ^ Z.of_nat (length fs) + number 16 fs) (Z.of_nat (length fs)) e).
Proof.
  intros Hl Hf He. unfold hex_body. change (hex_char lead :: "."%char :: fs ++ p :: esign e :: dec_digits 4 (Z.abs e)) with ([hex_char lead] ++ "."%char :: fs ++ p :: esign e :: dec_digits 4 (Z.abs e)).
  rewrite (span_all is_hex [hex_char lead] ("."%char :: fs ++ p :: esign e :: dec_digits 4 (Z.abs e))); [|constructor; [apply is_hex_char; exact Hl|constructor]|reflexivity].
  cbn [Ascii.eqb Bool.eqb]. rewrite (span_all is_hex fs); [|exact Hf|reflexivity].
  cbn [Datatypes.app].
  change (Ascii.eqb p "p") with true. cbn match.
  assert (SG : sign (esign e :: dec_digits 4 (Z.abs e)) = (e <? 0, dec_digits 4 (Z.abs e))) by (unfold esign; destruct (e <? 0); reflexivity).
  rewrite SG. pose proof (span_all is_dec (dec_digits 4 (Z.abs e)) [] (dec_digits_dec 4 _) I) as SD. rewrite app_nil_r in SD. rewrite SD.
  pose proof (dec_digits_nonempty (Z.abs e)) as NE. destruct (dec_digits 4 (Z.abs e)) as [|c0 r0] eqn:ED; [congruence|]. rewrite <- ED.
  rewrite dec_digits_number by (split; [lia|exact He]). change (hex_char lead :: fs) with ([hex_char lead] ++ fs). rewrite number_concat.
  replace (number 16 [hex_char lead]) with lead by (unfold number; cbn [fold_left]; rewrite digit_char by exact Hl; lia).
  do 2 f_equal. destruct (Z.ltb_spec e 0); cbn [signed]; lia.
Qed.
Lemma hex_no_p d : 0 <= d < 16 -> hex_char d <> p.
Proof. intros H E. pose proof (is_hex_char d H) as X. rewrite E in X. discriminate. Qed.
Lemma app_tail_inv {A} (b : list A) (x : A) : forall a c, ~ In x b -> forall d, a ++ b = c ++ x :: d -> exists e, a = c ++ x :: e.
Proof.
  induction a as [|y a IH]; intros c Hb d E; [exfalso; apply Hb; cbn in E; rewrite E; apply in_or_app; right; left; reflexivity|].
  destruct c as [|z c]; cbn in E; injection E as -> E; [exists a; reflexivity|]. destruct (IH c Hb d E) as (e & ->). exists e. reflexivity.
Qed.
Lemma written neg lead fr e : lead = 0 \/ lead = 1 ->
  exists fs, replace (zeros ++ [p]) [p] (py_hex (DFinite neg lead fr e)) = minus neg ++ "0"%char :: "x"%char :: hex_char lead :: "."%char :: fs ++ p :: esign e :: dec_digits 4 (Z.abs e) /\
    (fs = hex_digits 13 fr \/ hex_digits 13 fr = fs ++ zeros).
Proof.
  intros HL. set (x := minus neg ++ ["0"; "x"]%char ++ [hex_char lead] ++ ["."%char] ++ hex_digits 13 fr).
  set (t := esign e :: dec_digits 4 (Z.abs e)).
  assert (E : py_hex (DFinite neg lead fr e) = x ++ p :: t).
  { unfold x, t, esign, py_hex, p. rewrite <- !app_assoc. reflexivity. }
  assert (Hx : ~ In p x).
  { unfold x. intros X. apply in_app_or in X. destruct X as [X|X]; [destruct neg; cbn in X; intuition discriminate|].
    cbn [Datatypes.app In] in X. destruct X as [X|[X|[X|[X|X]]]]; try discriminate X; [revert X; apply hex_no_p; lia|].
    revert X. apply not_p_hex, hex_digits_hex. }
  assert (Ht : ~ In p t).
  { unfold t. intros [X|X]; [unfold esign in X; destruct (e <? 0); discriminate|]. revert X. apply dec_no_p, dec_digits_dec. }
  rewrite E. destruct (replace_digits x t Hx Ht) as [(x' & Ex & ->)| -> ].
  - assert (Ex2 : (minus neg ++ ["0"; "x"]%char ++ [hex_char lead]) ++ "."%char :: hex_digits 13 fr = x' ++ zeros) by (rewrite <- Ex; unfold x; rewrite <- !app_assoc; reflexivity).
    destruct (app_tail_inv zeros "."%char x' (minus neg ++ ["0"; "x"]%char ++ [hex_char lead]) ltac:(cbn; intuition discriminate) (hex_digits 13 fr) (eq_sym Ex2)) as (fs & ->).
    exists fs. split; [rewrite <- !app_assoc; reflexivity|]. right. rewrite <- (app_assoc (minus neg ++ ["0"; "x"]%char ++ [hex_char lead]) ("."%char :: fs) zeros) in Ex2. apply app_inv_head in Ex2. cbn [Datatypes.app] in Ex2. injection Ex2 as Ex2. exact Ex2.
  - exists (hex_digits 13 fr). split; [unfold x; rewrite <- !app_assoc; reflexivity|left; reflexivity].
Qed.
Lemma pow2_split a b : (Qpower 2 (a + b) == Qpower 2 a * Qpower 2 b)%Q.
Proof. apply Qpower_plus. discriminate. Qed.
Lemma scaled_value neg lead fr e fs : 0 <= fr < 16 ^ 13 -> (fs = hex_digits 13 fr \/ hex_digits 13 fr = fs ++ zeros) ->
  (scaled neg (lead * 16 ^ Z.of_nat (length fs) + number 16 fs) (Z.of_nat (length fs)) e == inject_Z (signed neg (lead * 16 ^ 13 + fr)) * Qpower 2 (e - 52))%Q.
Proof.
  intros Hf H. pose proof (hex_digits_number 13 fr Hf) as EN. destruct H as [-> | E].
  - rewrite EN, hex_digits_length. unfold scaled. change (Z.of_nat 13) with 13. replace (e - 4 * 13) with (e - 52) by lia. reflexivity.
  - assert (LF : length fs = 6%nat). { pose proof (hex_digits_length 13 fr) as L. rewrite E, app_length in L. change (length zeros) with 7%nat in L. lia. }
    rewrite E, number_concat in EN. change (number 16 zeros) with 0 in EN. change (Z.of_nat (length zeros)) with 7 in EN.
    rewrite LF. unfold scaled. change (Z.of_nat 6) with 6. replace (e - 4 * 6) with (28 + (e - 52)) by lia. rewrite pow2_split.
    change (Qpower 2 28) with (inject_Z (16 ^ 7)). rewrite Qmult_assoc. rewrite <- inject_Z_mult.
    replace (signed neg (lead * 16 ^ 6 + number 16 fs) * 16 ^ 7) with (signed neg (lead * 16 ^ 13 + fr)); [reflexivity|].
    rewrite <- EN. change (16 ^ 13) with (16 ^ 6 * 16 ^ 7). destruct neg; cbn [signed]; ring.
Qed.
Lemma hex_char_head lead : lead = 0 \/ lead = 1 -> Ascii.eqb (hex_char lead) "-" = false.
Proof. intros [-> | -> ]; reflexivity. Qed.
Lemma literal_exact d v : binary64 d -> value d = Some v ->
  (exists u, c_value (data2c d) = Some u /\ (u == v)%Q) /\ (exists u, fromhex (data2c d) = Some u /\ (u == v)%Q).
Proof.
  intros B E. destruct d as [neg|neg lead fr e|neg|]; try discriminate E; injection E as <-.
  - destruct neg; (split; eexists; (split; [reflexivity|reflexivity])).
  - destruct B as (Hf & HB). assert (HL : lead = 0 \/ lead = 1) by lia. assert (He : Z.abs e < 10 ^ 4) by lia.
    destruct (written neg lead fr e HL) as (fs & W & HF).
    assert (FH : Forall (fun c => is_hex c = true) fs).
    { destruct HF as [-> |HF]; [apply hex_digits_hex|]. pose proof (hex_digits_hex 13 fr) as X. rewrite HF in X. apply Forall_app in X. apply X. }
    assert (EL : list_ascii_of_string (data2c (DFinite neg lead fr e)) = minus neg ++ "0"%char :: "x"%char :: hex_char lead :: "."%char :: fs ++ p :: esign e :: dec_digits 4 (Z.abs e)).
    { unfold data2c. rewrite list_ascii_of_string_of_list_ascii. rewrite pattern_eq. exact W. }
    unfold c_value, fromhex. rewrite EL. clear EL W.
    assert (BV : forall strict, hex_body strict neg (hex_char lead :: "."%char :: fs ++ p :: esign e :: dec_digits 4 (Z.abs e)) =
      Some (scaled neg (lead * 16 ^ Z.of_nat (length fs) + number 16 fs) (Z.of_nat (length fs)) e)) by (intros strict; apply body_value; [lia|exact FH|exact He]).
    split; (eexists; split; [|apply scaled_value; [exact Hf|exact HF]]).
    + destruct neg; cbn [minus Datatypes.app Ascii.eqb Bool.eqb without_0x andb]; apply BV.
    + destruct neg; cbn [minus Datatypes.app sign Ascii.eqb Bool.eqb without_0x andb]; apply BV.
Qed.
