(** * Properties C43, C44, C54: quantisation and binary parameter files. *)
From Coq Require Import String Ascii ZArith QArith Qround Qabs Lia Bool Lqa.
From Coq Require Import Decimal DecimalString DecimalZ.
From Coq Require Import List.
Import ListNotations.
From Verif Require Import CMem Tensor Num NumInst Linear LinearProofs PropertiesMovement PropertiesLinear Quant.
Open Scope Z_scope.

(** ** C43, the strings.  A string of digits and its value in base ten. *)
Definition digit_char (c : ascii) (v : Z) : Prop := 0 <= v <= 9 /\ Z.of_N (N_of_ascii c) = 48 + v.
Inductive decimal : string -> Z -> Prop :=
  | one_digit c v : digit_char c v -> decimal (String c EmptyString) v
  | more_digits s c n v : decimal s n -> digit_char c v -> decimal (s ++ String c EmptyString) (10 * n + v).

Lemma is_digit_spec c : is_digit c = true <-> exists v, digit_char c v.
Proof.
  unfold is_digit, digit_char. rewrite andb_true_iff, !N.leb_le. split.
  - intros [H1 H2]. exists (Z.of_N (N_of_ascii c) - 48). lia.
  - intros (v & Hv & E). lia.
Qed.
Lemma py_int_snoc d : forall acc c, py_int_from acc (d ++ String c EmptyString) = 10 * py_int_from acc d + (Z.of_N (N_of_ascii c) - 48).
Proof. induction d as [|a d IH]; intros acc c; cbn [append py_int_from]; [reflexivity|apply IH]. Qed.
Fixpoint all_digits (s : string) : bool := match s with EmptyString => true | String c s' => is_digit c && all_digits s' end.
Lemma all_digits_app a b : all_digits (a ++ b) = all_digits a && all_digits b.
Proof. induction a as [|c a IH]; cbn; [reflexivity|]. rewrite IH, andb_assoc. reflexivity. Qed.
Lemma str_snoc_ind (P : string -> Prop) : P EmptyString -> (forall s c, P s -> P (s ++ String c EmptyString)%string) -> forall s, P s.
Proof.
  intros H0 HS.
  assert (G : forall n s, String.length s = n -> P s).
  2:{ intros s. exact (G _ s eq_refl). }
  induction n as [|n IH]; intros s Hn; [destruct s; [exact H0|discriminate]|].
  assert (HL : exists s' c, s = (s' ++ String c EmptyString)%string /\ String.length s' = n).
  { clear IH H0 HS. revert n Hn. induction s as [|a s IH]; intros n Hn; [discriminate|]. injection Hn as Hn.
    destruct s as [|b s]; [exists EmptyString, a; cbn in *; auto|].
    destruct n as [|n]; [discriminate|]. destruct (IH n) as (s' & c & E & L); [exact Hn|].
    exists (String a s'), c. rewrite E. cbn. auto. }
  destruct HL as (s' & c & -> & L). apply HS. apply IH. exact L.
Qed.
Lemma decimal_iff s n : decimal s n <-> s <> EmptyString /\ all_digits s = true /\ n = py_int_from 0 s.
Proof.
  split.
  - induction 1 as [c v [Hv Hc]|s c n v Hs (IH1 & IH2 & IH3) [Hv Hc]].
    + split; [discriminate|]. split; [|cbn; lia]. cbn. rewrite andb_true_r. apply is_digit_spec. exists v. split; assumption.
    + split; [destruct s; discriminate|]. split; [|rewrite py_int_snoc; lia].
      rewrite all_digits_app, IH2. cbn. rewrite andb_true_r. apply is_digit_spec. exists v. split; assumption.
  - revert n. induction s as [|s c IH] using str_snoc_ind; intros n (NE & D & ->); [congruence|].
    rewrite all_digits_app in D. apply andb_true_iff in D as [D1 D2]. cbn in D2. rewrite andb_true_r in D2.
    apply is_digit_spec in D2 as (v & Hd). destruct Hd as [Hv Hc].
    destruct s as [|a s].
    + cbn. replace (Z.of_N (N_of_ascii c) - 48) with v by lia. constructor. split; assumption.
    + rewrite py_int_snoc. replace (Z.of_N (N_of_ascii c) - 48) with v by lia.
      constructor; [|split; assumption]. apply IH. split; [discriminate|]. split; [exact D1|reflexivity].
Qed.
Lemma span_digits_spec s d r : span_digits s = (d, r) ->
  s = (d ++ r)%string /\ all_digits d = true /\ (forall c r', r = String c r' -> is_digit c = false).
Proof.
  revert d r. induction s as [|c s IH]; intros d r; cbn.
  - intros [= <- <-]. repeat split. discriminate.
  - destruct (is_digit c) eqn:E.
    + destruct (span_digits s) as [d' r'] eqn:ES. intros [= <- <-]. destruct (IH _ _ eq_refl) as (-> & H2 & H3).
      split; [reflexivity|]. split; [cbn; rewrite E; exact H2|exact H3].
    + intros [= <- <-]. split; [reflexivity|]. split; [reflexivity|]. intros c' r' [= <- <-]. exact E.
Qed.
Lemma span_digits_app d r : all_digits d = true -> (forall c r', r = String c r' -> is_digit c = false) ->
  span_digits (d ++ r) = (d, r).
Proof.
  induction d as [|c d IH]; cbn; intros H1 H2.
  - destruct r as [|c r]; [reflexivity|]. cbn. rewrite (H2 c r eq_refl). reflexivity.
  - apply andb_true_iff in H1 as [H1 H1']. rewrite H1, IH by assumption. reflexivity.
Qed.
Lemma match_digits_spec s n r : match_digits s = Some (n, r) ->
  exists d, s = (d ++ r)%string /\ decimal d n /\ forall c r', r = String c r' -> is_digit c = false.
Proof.
  unfold match_digits. destruct (span_digits s) as [d r'] eqn:E. apply span_digits_spec in E as (E1 & E2 & E3).
  destruct d as [|c d]; [discriminate|]. intros [= <- <-]. exists (String c d). split; [exact E1|]. split; [|exact E3].
  apply decimal_iff. split; [discriminate|]. split; [exact E2|reflexivity].
Qed.
Lemma match_digits_app d n r : decimal d n -> (forall c r', r = String c r' -> is_digit c = false) ->
  match_digits (d ++ r) = Some (n, r).
Proof.
  intros H HR. apply decimal_iff in H as (NE & D & ->). unfold match_digits. rewrite span_digits_app by assumption.
  destruct d; [congruence|reflexivity].
Qed.
Lemma match_char_spec c s r : match_char c s = Some r <-> s = String c r.
Proof.
  destruct s as [|c' s]; cbn; [split; discriminate|]. destruct (Ascii.eqb_spec c' c) as [->|NE]; split; congruence.
Qed.
Lemma match_end_spec s : match_end s = true <-> exists nl : bool, s = (if nl then String newline "" else "")%string.
Proof.
  unfold match_end. rewrite orb_true_iff, !String.eqb_eq. split.
  - intros [->| ->]; [exists false|exists true]; reflexivity.
  - intros ([] & ->); auto.
Qed.
Lemma match_minus_spec (neg : bool) d n r : decimal d n ->
  match_minus ((if neg then "-" else "") ++ d ++ r)%string = (if neg then -1 else 1, (d ++ r)%string).
Proof.
  intros H. destruct neg; [reflexivity|]. apply decimal_iff in H as (NE & D & _). destruct d as [|c d]; [congruence|].
  cbn in *. apply andb_true_iff in D as [D _]. destruct (Ascii.eqb_spec c "-"%char) as [->|]; [discriminate|reflexivity].
Qed.
Lemma match_minus_inv s : exists neg : bool, s = ((if neg then "-" else "") ++ snd (match_minus s))%string /\ fst (match_minus s) = if neg then -1 else 1.
Proof.
  destruct s as [|c s]; [exists false; split; reflexivity|]. cbn. destruct (Ascii.eqb_spec c "-"%char) as [->|].
  - exists true. split; reflexivity.
  - exists false. split; reflexivity.
Qed.

(** The strings accepted, and what they mean: Q, an optional minus, digits, a
    point, digits — and possibly a final newline. *)
Theorem C43_accepted_strings : forall s x y,
  parse_q_format s = Some (x, y) <->
  exists (neg : bool) d1 n d2 (nl : bool),
    decimal d1 n /\ decimal d2 y /\ x = (if neg then - n else n) /\
    s = ("Q" ++ (if neg then "-" else "") ++ d1 ++ "." ++ d2 ++ (if nl then String newline "" else ""))%string.
Proof.
  intros s x y. unfold parse_q_format. split.
  - destruct (match_char "Q" s) as [r0|] eqn:E0; cbn [bind]; [|discriminate].
    apply match_char_spec in E0 as ->. destruct (match_minus_inv r0) as (neg & Er & Es).
    destruct (match_minus r0) as [sign r1]. cbn [fst snd] in Er, Es. subst sign r0.
    destruct (match_digits r1) as [[n r2]|] eqn:E1; cbn [bind fst snd]; [|discriminate].
    destruct (match_char "." r2) as [r3|] eqn:E2; cbn [bind]; [|discriminate].
    destruct (match_digits r3) as [[n2 r4]|] eqn:E3; cbn [bind fst snd]; [|discriminate].
    destruct (match_end r4) eqn:E4; [|discriminate]. intros [= <- <-].
    apply match_digits_spec in E1 as (d1 & -> & D1 & _). apply match_char_spec in E2 as ->.
    apply match_digits_spec in E3 as (d2 & -> & D2 & _). apply match_end_spec in E4 as (nl & ->).
    exists neg, d1, n, d2, nl. split; [exact D1|]. split; [exact D2|]. split; [destruct neg; lia|]. reflexivity.
  - intros (neg & d1 & n & d2 & nl & D1 & D2 & -> & ->).
    replace (match_char "Q" _) with (Some ((if neg then "-" else "") ++ d1 ++ "." ++ d2 ++ (if nl then String newline "" else ""))%string)
      by reflexivity. cbn [bind].
    rewrite (match_minus_spec neg d1 n _ D1).
    rewrite (match_digits_app d1 n _ D1) by (cbn; intros c r' [= <- <-]; reflexivity).
    cbn [bind fst snd]. replace (match_char "." _) with (Some (d2 ++ (if nl then String newline "" else ""))%string) by reflexivity.
    cbn [bind]. rewrite (match_digits_app d2 y _ D2) by (destruct nl; intros c r' [= <- <-]; reflexivity).
    cbn [bind fst snd]. replace (match_end _) with true by (destruct nl; reflexivity).
    f_equal. f_equal. destruct neg; lia.
Qed.
Print Assumptions C43_accepted_strings.

(** [str(x)]: the standard library's decimal writing. *)
Definition py_str (x : Z) : string := NilZero.string_of_int (Z.to_int x).
Lemma digit_of v : 0 <= v <= 9 -> exists c, digit_char c v.
Proof.
  intros H. exists (ascii_of_N (Z.to_N (48 + v))). split; [exact H|]. rewrite N_ascii_embedding by lia. lia.
Qed.
Lemma of_uint_acc_value u : forall acc, Z.pos (Pos.of_uint_acc u acc) = py_int_from (Z.pos acc) (NilEmpty.string_of_uint u).
Proof.
  induction u as [|u IH|u IH|u IH|u IH|u IH|u IH|u IH|u IH|u IH|u IH]; intros acc; [reflexivity|..]; cbn [Pos.of_uint_acc NilEmpty.string_of_uint py_int_from];
    rewrite IH; f_equal; cbn [N_of_ascii N_of_digits]; lia.
Qed.
Lemma of_uint_value u : Z.of_uint u = py_int_from 0 (NilEmpty.string_of_uint u).
Proof.
  unfold Z.of_uint. induction u as [|u IH|u IH|u IH|u IH|u IH|u IH|u IH|u IH|u IH|u IH]; [reflexivity|exact IH|..];
    cbn [Pos.of_uint NilEmpty.string_of_uint Z.of_N]; rewrite of_uint_acc_value; reflexivity.
Qed.
Lemma string_of_uint_digits u : all_digits (NilEmpty.string_of_uint u) = true.
Proof. induction u; cbn [NilEmpty.string_of_uint all_digits]; try reflexivity; rewrite IHu; reflexivity. Qed.
Lemma nilzero_decimal u : decimal (NilZero.string_of_uint u) (Z.of_uint u).
Proof.
  apply decimal_iff. destruct u; [repeat split; try discriminate; reflexivity|..];
    (split; [discriminate|split; [apply string_of_uint_digits|apply of_uint_value]]).
Qed.

Lemma app_empty_r_str s : (s ++ "")%string = s.
Proof. induction s as [|c s IH]; cbn; [reflexivity|]. rewrite IH. reflexivity. Qed.
(** A rendered format parses back to its integers. *)
Theorem C43_render_parse : forall x y, 0 <= y ->
  parse_q_format ("Q" ++ py_str x ++ "." ++ py_str y) = Some (x, y).
Proof.
  intros x y Hy. apply C43_accepted_strings.
  assert (DY : decimal (py_str y) y).
  { unfold py_str. rewrite <- (of_to y) at 2. destruct (Z.to_int y) as [u|u] eqn:E; [apply nilzero_decimal|].
    destruct y; try discriminate E. lia. }
  destruct (Z.to_int x) as [u|u] eqn:E.
  - exists false, (py_str x), x, (py_str y), false. split; [|split; [exact DY|split; [reflexivity|]]].
    + unfold py_str. rewrite E. rewrite <- (of_to x), E. apply nilzero_decimal.
    + cbn. rewrite app_empty_r_str. reflexivity.
  - exists true, (NilZero.string_of_uint u), (Z.of_uint u), (py_str y), false.
    split; [apply nilzero_decimal|split; [exact DY|split]].
    + rewrite <- (of_to x), E. reflexivity.
    + unfold py_str. rewrite E. cbn. rewrite app_empty_r_str. reflexivity.
Qed.
Print Assumptions C43_render_parse.
Example C43_example : parse_q_format "Q-3.18" = Some (-3, 18) /\ parse_q_format "Q0.07" = Some (0, 7) /\ parse_q_format "Q1.2x" = None /\
  parse_q_format "q1.2" = None /\ parse_q_format "Q1." = None /\ parse_q_format "Q1.-2" = None /\ parse_q_format "" = None.
Proof. repeat split. Qed.
(** "Malformed strings are rejected" fails for a final newline. *)
Theorem C43_final_newline_refuted : exists s, s <> ("Q" ++ py_str 1 ++ "." ++ py_str 2)%string /\
  (forall x y, s <> ("Q" ++ py_str x ++ "." ++ py_str y)%string) /\ parse_q_format s = Some (1, 2).
Proof.
  exists ("Q1.2" ++ String newline "")%string. split; [discriminate|]. split; [|reflexivity].
  intros x y E. apply (f_equal (fun s => String.get 4 s)) in E as E4.
  assert (D : forall z, forall i, String.get i (py_str z) <> Some newline).
  { intros z. assert (G : forall s, all_digits s = true -> forall i, String.get i s <> Some newline).
    { induction s as [|c s IH]; cbn; [discriminate|]. intros H i. apply andb_true_iff in H as [H1 H2].
      destruct i as [|i]; [intros [= ->]; discriminate|apply IH; exact H2]. }
    unfold py_str. destruct (Z.to_int z) as [u|u].
    - cbn. apply G. pose proof (nilzero_decimal u) as H. apply decimal_iff in H. tauto.
    - cbn [NilZero.string_of_int]. intros [|i]; [discriminate|]. cbn. apply G.
      pose proof (nilzero_decimal u) as H. apply decimal_iff in H. tauto. }
  assert (GA : forall a b, (forall i, String.get i a <> Some newline) -> (forall i, String.get i b <> Some newline) ->
    forall i, String.get i (a ++ b)%string <> Some newline).
  { clear. induction a as [|c a IH]; intros b Ha Hb i; [apply Hb|]. cbn. destruct i as [|i]; [exact (Ha 0%nat)|].
    apply IH; [intros j; exact (Ha (S j))|exact Hb]. }
  assert (H : String.get 4 ("Q" ++ py_str x ++ "." ++ py_str y)%string <> Some newline).
  { apply GA; [intros [|[|i]]; cbn; discriminate|]. apply GA; [apply D|]. apply GA; [intros [|[|i]]; cbn; discriminate|apply D]. }
  apply H. rewrite <- E. reflexivity.
Qed.
Print Assumptions C43_final_newline_refuted.

(** ** C43, the post shift.  It is never negative, and raises exactly when a
    string is malformed. *)
Theorem C43_shift_nonnegative : forall qparam qin qout s, post_shift qparam qin qout = Some s -> 0 <= s.
Proof.
  intros qparam qin qout s. unfold post_shift.
  destruct (parse_q_format qparam) as [[? mp]|], (parse_q_format qin) as [[? mi]|], (parse_q_format qout) as [[? mo]|]; try discriminate.
  intros [= <-]. destruct (Z.ltb_spec (mi + mp - mo) 0); lia.
Qed.
Print Assumptions C43_shift_nonnegative.

(** An accumulator [acc] of products of a [qin] value and a [qparam] value stands
    for acc / 2^(min+mparam).  If the output format has no more fractional bits
    than that, the shifted accumulator stands, in the output format, for that
    number rounded down to the output precision. *)
Theorem C43_shift_rescales : forall qparam qin qout s ip mp ii mi io mo acc,
  parse_q_format qparam = Some (ip, mp) -> parse_q_format qin = Some (ii, mi) -> parse_q_format qout = Some (io, mo) ->
  post_shift qparam qin qout = Some s -> mo <= mi + mp ->
  let out := Z.shiftr acc s in
  (inject_Z out / inject_Z (2 ^ mo) <= inject_Z acc / inject_Z (2 ^ (mi + mp)) < inject_Z (out + 1) / inject_Z (2 ^ mo))%Q.
Proof.
  intros * Ep Ei Eo Es Hle out. unfold post_shift in Es. rewrite Ep, Ei, Eo in Es.
  assert (NN : forall q a b, parse_q_format q = Some (a, b) -> 0 <= b).
  { intros q a b H. apply C43_accepted_strings in H as (neg & d1 & n & d2 & nl & _ & D2 & _).
    apply decimal_iff in D2 as (_ & D & ->). clear -D. assert (G : forall s acc, all_digits s = true -> 0 <= acc -> 0 <= py_int_from acc s).
    { induction s as [|c s IH]; intros acc H Ha; [exact Ha|]. cbn [py_int_from all_digits] in *. apply andb_true_iff in H as [H1 H2]. apply IH; [exact H2|].
      apply is_digit_spec in H1 as (v & Hv & Hc). lia. }
    apply G; [exact D|lia]. }
  pose proof (NN _ _ _ Ep). pose proof (NN _ _ _ Ei). pose proof (NN _ _ _ Eo).
  destruct (Z.ltb_spec (mi + mp - mo) 0); [lia|]. injection Es as <-.
  assert (P1 : 0 < 2 ^ mo) by (apply Z.pow_pos_nonneg; lia).
  assert (P2 : 0 < 2 ^ (mi + mp - mo)) by (apply Z.pow_pos_nonneg; lia).
  assert (PE : 2 ^ (mi + mp) = 2 ^ mo * 2 ^ (mi + mp - mo)) by (rewrite <- Z.pow_add_r by lia; f_equal; lia).
  assert (FL : out * 2 ^ (mi + mp - mo) <= acc < (out + 1) * 2 ^ (mi + mp - mo)).
  { unfold out. rewrite Z.shiftr_div_pow2 by lia.
    pose proof (Z.div_mod acc (2 ^ (mi + mp - mo)) ltac:(lia)). pose proof (Z.mod_pos_bound acc (2 ^ (mi + mp - mo)) P2).
    rewrite Z.mul_add_distr_r, (Z.mul_comm (acc / _)). lia. }
  rewrite PE. generalize dependent (2 ^ mo). generalize dependent (2 ^ (mi + mp - mo)). intros b P2 FL a P1 _.
  assert (QD : forall x y, 0 < y -> (inject_Z x / inject_Z y == (x # Z.to_pos y))%Q).
  { intros x y Hy. destruct y as [|y|y]; try lia. unfold Qdiv, Qinv, inject_Z, Qmult, Qeq. cbn. lia. }
  rewrite !QD by nia. unfold Qle, Qlt. cbn [Qnum Qden]. rewrite !Z2Pos.id by nia. split; nia.
Qed.
Print Assumptions C43_shift_rescales.
Example C43_shift_example : post_shift "Q0.15" "Q0.15" "Q2.13" = Some 17 /\ Z.shiftr (-3 * 2 ^ 17 - 1) 17 = -4.
Proof. repeat split. Qed.
(** With more fractional bits in the output format a left shift would be needed;
    the shift is clamped to 0 and the result is off by a factor. *)
Theorem C43_shift_clamped_refuted : exists qparam qin qout s acc mi mp mo,
  parse_q_format qparam = Some (0, mp) /\ parse_q_format qin = Some (0, mi) /\ parse_q_format qout = Some (0, mo) /\
  post_shift qparam qin qout = Some s /\
  (inject_Z acc / inject_Z (2 ^ (mi + mp)) == 1)%Q /\ (inject_Z (Z.shiftr acc s) / inject_Z (2 ^ mo) == 1 # 4)%Q.
Proof. exists "Q0.2"%string, "Q0.3"%string, "Q0.7"%string, 0, 32, 3, 2, 7. repeat split. Qed.
Print Assumptions C43_shift_clamped_refuted.

(** The C expression and the Python activation agree, for every accumulator of
    [w] bits, when the shift is below the width of the C operand. *)
Theorem C43_shift_c_equals_python : forall w d s act z,
  0 <= s < Z.max 32 w -> qshift_c w d s act z = Some (qshift_py d s act z).
Proof.
  intros w d s act z Hs. unfold qshift_c, qshift_py.
  destruct (Z.leb_spec 0 s), (Z.ltb_spec s (Z.max 32 w)); try lia. reflexivity.
Qed.
Print Assumptions C43_shift_c_equals_python.
(** Formats whose shift reaches the width give a C shift with undefined result. *)
Theorem C43_wide_shift_refuted : exists qparam qin qout s,
  post_shift qparam qin qout = Some s /\ forall d act z, qshift_c 32 d s act z = None.
Proof. exists "Q0.31"%string, "Q0.31"%string, "Q8.7"%string, 55. split; [reflexivity|]. intros. reflexivity. Qed.
Print Assumptions C43_wide_shift_refuted.

(** ** C43, the parameters. *)
Lemma fits_wrap n z : 0 < n -> fits n (wrap n z).
Proof.
  intros Hn. unfold fits, wrap. pose proof (Z.mod_pos_bound (z + 2 ^ (n - 1)) (2 ^ n)) as H.
  assert (E : 2 ^ n = 2 * 2 ^ (n - 1)) by (rewrite <- Z.pow_succ_r by lia; f_equal; lia).
  assert (0 < 2 ^ (n - 1)) by (apply Z.pow_pos_nonneg; lia). lia.
Qed.
Lemma wrap_fits n z : 0 < n -> fits n z -> wrap n z = z.
Proof.
  intros Hn Hf. unfold fits in Hf. unfold wrap.
  assert (E : 2 ^ n = 2 * 2 ^ (n - 1)) by (rewrite <- Z.pow_succ_r by lia; f_equal; lia).
  rewrite Z.mod_small by lia. lia.
Qed.
(** wrapping keeps the value modulo 2^n *)
Lemma wrap_congr n z : 0 < n -> exists k, wrap n z = z + k * 2 ^ n.
Proof.
  intros Hn. unfold wrap. exists (- ((z + 2 ^ (n - 1)) / 2 ^ n)).
  assert (0 < 2 ^ n) by (apply Z.pow_pos_nonneg; lia).
  pose proof (Z.div_mod (z + 2 ^ (n - 1)) (2 ^ n) ltac:(lia)). lia.
Qed.
Lemma rint_bound x : (Qabs (inject_Z (rint x) - x) <= 1 # 2)%Q.
Proof.
  unfold rint. pose proof (Qfloor_le x) as L. pose proof (Qlt_floor x) as U. rewrite inject_Z_plus in U.
  change (inject_Z 1) with 1%Q in U.
  apply Qabs_Qle_condition.
  destruct (Qcompare_spec (x - inject_Z (Qfloor x)) (1 # 2)) as [E|E|E].
  - destruct (Z.even (Qfloor x)); rewrite ?inject_Z_plus; change (inject_Z 1) with 1%Q; split; lra.
  - split; lra.
  - rewrite inject_Z_plus; change (inject_Z 1) with 1%Q; split; lra.
Qed.

(** Nearest integer, the even one of two equally near. *)
Theorem C43_nearest_ties_to_even : forall (x : Q) (n : Z),
  (Qabs (inject_Z (rint x) - x) <= Qabs (inject_Z n - x))%Q /\
  ((Qabs (inject_Z (rint x) - x) == Qabs (inject_Z n - x))%Q -> n <> rint x -> Z.even (rint x) = true).
Proof.
  intros x n. pose proof (Qfloor_le x) as L. pose proof (Qlt_floor x) as U. rewrite inject_Z_plus in U.
  change (inject_Z 1) with 1%Q in U. set (f := Qfloor x) in *.
  assert (LE : forall a b, (a <= b)%Z -> (inject_Z a <= inject_Z b)%Q) by (intros a b Hab; rewrite <- Zle_Qle; exact Hab).
  assert (N1 : n <= f \/ f + 1 <= n) by lia.
  assert (AB : forall a b : Q, (Qabs a <= b)%Q <-> (- b <= a /\ a <= b)%Q) by (intros; apply Qabs_Qle_condition).
  assert (RN : n <= f -> (Qabs (inject_Z n - x) == x - inject_Z n)%Q).
  { intros H. rewrite Qabs_neg; [ring|]. pose proof (LE _ _ H). lra. }
  assert (RP : f + 1 <= n -> (Qabs (inject_Z n - x) == inject_Z n - x)%Q).
  { intros H. rewrite Qabs_pos; [reflexivity|]. pose proof (LE _ _ H) as H0. rewrite inject_Z_plus in H0. change (inject_Z 1) with 1%Q in H0. lra. }
  assert (RF : (Qabs (inject_Z f - x) == x - inject_Z f)%Q) by (rewrite Qabs_neg; [ring|lra]).
  assert (RF1 : (Qabs (inject_Z (f + 1) - x) == inject_Z f + 1 - x)%Q).
  { rewrite Qabs_pos; rewrite inject_Z_plus; change (inject_Z 1) with 1%Q; [reflexivity|lra]. }
  assert (CN : (n <= f -> (inject_Z n <= inject_Z f)%Q /\ (n = f \/ (inject_Z n <= inject_Z f - 1)%Q))).
  { intros H. split; [apply LE; exact H|]. destruct (Z.eq_dec n f); [left; assumption|right].
    pose proof (LE n (f + -1) ltac:(lia)) as H0. rewrite inject_Z_plus in H0. change (inject_Z (-1)) with (-1 # 1)%Q in H0. lra. }
  assert (CP : (f + 1 <= n -> (inject_Z f + 1 <= inject_Z n)%Q /\ (n = f + 1 \/ (inject_Z f + 2 <= inject_Z n)%Q))).
  { intros H. pose proof (LE _ _ H) as H0. rewrite inject_Z_plus in H0. change (inject_Z 1) with 1%Q in H0. split; [exact H0|].
    destruct (Z.eq_dec n (f + 1)); [left; assumption|right].
    pose proof (LE (f + 2) n ltac:(lia)) as H1. rewrite inject_Z_plus in H1. change (inject_Z 2) with 2%Q in H1. exact H1. }
  unfold rint. fold f. destruct (Qcompare_spec (x - inject_Z f) (1 # 2)) as [E|E|E].
  - destruct (Z.even f) eqn:EV.
    + split; [|intros _ _; exact EV]. destruct N1 as [H|H]; [rewrite (RN H)|rewrite (RP H)]; rewrite RF; [apply CN in H|apply CP in H]; lra.
    + split; [|intros _ _; rewrite Z.even_add, EV; reflexivity]. destruct N1 as [H|H]; [rewrite (RN H)|rewrite (RP H)]; rewrite RF1; [apply CN in H|apply CP in H]; lra.
  - split.
    + destruct N1 as [H|H]; [rewrite (RN H)|rewrite (RP H)]; rewrite RF; [apply CN in H|apply CP in H]; lra.
    + intros EQ NE. exfalso. destruct N1 as [H|H]; [rewrite (RN H) in EQ|rewrite (RP H) in EQ]; rewrite RF in EQ; [apply CN in H|apply CP in H].
      * destruct H as [_ [H|H]]; [contradiction|lra].
      * lra.
  - split.
    + destruct N1 as [H|H]; [rewrite (RN H)|rewrite (RP H)]; rewrite RF1; [apply CN in H|apply CP in H]; lra.
    + intros EQ NE. exfalso. destruct N1 as [H|H]; [rewrite (RN H) in EQ|rewrite (RP H) in EQ]; rewrite RF1 in EQ; [apply CN in H|apply CP in H].
      * lra.
      * destruct H as [_ [H|H]]; [contradiction|lra].
Qed.
Print Assumptions C43_nearest_ties_to_even.
Example C43_ties_example : rint (5 # 2) = 2 /\ rint (7 # 2) = 4 /\ rint (-(5 # 2)) = -2 /\ rint (-(8 # 3)) = -3.
Proof. repeat split. Qed.

(** A parameter whose scaled value fits is stored within half a unit in the last place. *)
Theorem C43_parameter_half_ulp : forall d m p, 0 < d -> 0 <= m ->
  (- inject_Z (2 ^ (d - 1)) <= p * inject_Z (2 ^ m) <= inject_Z (2 ^ (d - 1)) - 1)%Q ->
  (Qabs (inject_Z (quantize_param d m p) / inject_Z (2 ^ m) - p) <= (1 # 2) / inject_Z (2 ^ m))%Q.
Proof.
  intros d m p Hd Hm HB. unfold quantize_param.
  set (x := (p * inject_Z (2 ^ m))%Q) in *.
  assert (RB : fits d (rint x)).
  { unfold fits. pose proof (rint_bound x) as RB. apply Qabs_Qle_condition in RB as [R1 R2].
    assert (H1 : (inject_Z (- 2 ^ (d - 1)) - 1 < inject_Z (rint x))%Q) by (rewrite inject_Z_opp; lra).
    assert (H2 : (inject_Z (rint x) < inject_Z (2 ^ (d - 1)))%Q) by lra.
    change 1%Q with (inject_Z 1) in H1. unfold Qminus in H1. rewrite <- inject_Z_opp, <- inject_Z_plus, <- Zlt_Qlt in H1.
    rewrite <- Zlt_Qlt in H2. lia. }
  rewrite wrap_fits by assumption.
  assert (P : (0 < inject_Z (2 ^ m))%Q) by (change 0%Q with (inject_Z 0); rewrite <- Zlt_Qlt; apply Z.pow_pos_nonneg; lia).
  assert (EQ : (inject_Z (rint x) / inject_Z (2 ^ m) - p == (inject_Z (rint x) - x) / inject_Z (2 ^ m))%Q).
  { unfold x. field. intros H. rewrite H in P. discriminate. }
  rewrite EQ. unfold Qdiv at 1. rewrite Qabs_Qmult. rewrite (Qabs_pos (/ inject_Z (2 ^ m))).
  - unfold Qdiv. apply Qmult_le_compat_r; [apply rint_bound|]. apply Qlt_le_weak. apply Qinv_lt_0_compat. exact P.
  - apply Qlt_le_weak. apply Qinv_lt_0_compat. exact P.
Qed.
Print Assumptions C43_parameter_half_ulp.
Example C43_parameter_example : quantize_param 16 15 (-1 # 2) = -16384 /\ quantize_param 8 0 (5 # 2) = 2 /\ quantize_param 8 0 (7 # 2) = 4.
Proof. repeat split. Qed.
(** Parameters that do not fit wrap around (1.0 in Q0.15 becomes -1.0), and the
    warning is only given when every parameter of the array is truncated. *)
Theorem C43_unreported_truncation_refuted : exists d m ps p,
  In p ps /\ (inject_Z (quantize_param d m p) / inject_Z (2 ^ m) == - p)%Q /\ ~ (p == 0)%Q /\ quantize_warns d m ps = false.
Proof. exists 16, 15, [1%Q; 0%Q], 1%Q. split; [left; reflexivity|]. split; [reflexivity|]. split; [discriminate|reflexivity]. Qed.
Print Assumptions C43_unreported_truncation_refuted.
Theorem C43_unreported_output_truncation_refuted : exists d s l z,
  In z l /\ wrap d (Z.shiftr z s) <> Z.shiftr z s /\ qshift_warns d s l = false.
Proof. exists 16, 0, [40000; 1], 40000. split; [left; reflexivity|]. split; [discriminate|reflexivity]. Qed.
Print Assumptions C43_unreported_output_truncation_refuted.

(** ** C44.  [align_up] with a power of two: the smallest multiple not below the value. *)
Lemma align_up_eq v k : 0 <= k -> align_up v (2 ^ k) = (v + (2 ^ k - 1)) / 2 ^ k * 2 ^ k.
Proof.
  intros Hk. unfold align_up.
  assert (E : 2 ^ k - 1 = Z.ones k) by (rewrite Z.ones_equiv; lia). rewrite E.
  rewrite <- Z.ldiff_land, Z.ldiff_ones_r by exact Hk. rewrite Z.shiftl_mul_pow2, Z.shiftr_div_pow2 by exact Hk. reflexivity.
Qed.
Theorem C44_align_up : forall v k, 0 <= k ->
  let r := align_up v (2 ^ k) in
  (2 ^ k | r) /\ v <= r /\ forall r', (2 ^ k | r') -> v <= r' -> r <= r'.
Proof.
  intros v k Hk r. unfold r. rewrite align_up_eq by exact Hk.
  assert (P : 0 < 2 ^ k) by (apply Z.pow_pos_nonneg; lia). set (a := 2 ^ k) in *. clearbody a.
  pose proof (Z.div_mod (v + (a - 1)) a ltac:(lia)). pose proof (Z.mod_pos_bound (v + (a - 1)) a P).
  split; [exists ((v + (a - 1)) / a); reflexivity|]. split; [lia|].
  intros r' (q & ->) Hv. assert ((v + (a - 1)) / a <= q); [|nia].
  apply Z.lt_succ_r. apply Z.div_lt_upper_bound; [lia|]. unfold Z.succ. nia.
Qed.
Print Assumptions C44_align_up.
(** Alignments are not checked to be powers of two; with another one arrays are misaligned. *)
Theorem C44_other_alignment_refuted : exists v a, 0 < a /\ ~ (a | align_up v a).
Proof. exists 1, 3. split; [lia|]. intros (q & H). change (align_up 1 3) with 1 in H. lia. Qed.
Print Assumptions C44_other_alignment_refuted.

(** The bytes [from, from + len) of a file. *)
Definition slice (file : list byte) (from len : Z) : list byte := firstn (Z.to_nat len) (skipn (Z.to_nat from) file).

(** Every array of the symbol table has its --add-symbol entry, in order; it
    starts at the smallest aligned offset not below the end of the previous
    array; the file holds its bytes there. *)
Definition sections_ok (page : Z) (symtab : list (string * list byte)) (file : list byte) (tell : Z) (syms : list (string * Z)) : Prop :=
  map fst syms = map fst symtab /\
  zlen file <= tell /\
  (forall i s b o, nth_error symtab i = Some (s, b) -> nth_error syms i = Some (s, o) ->
     (page | o) /\ 0 <= o /\ o + zlen b <= tell /\
     (b <> [] -> slice file o (zlen b) = b) /\
     let previous_end := match i with O => 0 | S j => match nth_error symtab j, nth_error syms j with Some (_, b'), Some (_, o') => o' + zlen b' | _, _ => 0 end end in
     previous_end <= o /\ forall o', (page | o') -> previous_end <= o' -> o <= o') /\
  tell = match rev syms, rev symtab with (_, o) :: _, (_, b) :: _ => o + zlen b | _, _ => 0 end.
Lemma slice_app_l f1 f2 o n : 0 <= o -> 0 <= n -> o + n <= zlen f1 -> slice (f1 ++ f2) o n = slice f1 o n.
Proof.
  intros Ho Hn H. unfold slice, zlen in *. rewrite skipn_app, firstn_app.
  replace (Z.to_nat n - length (skipn (Z.to_nat o) f1))%nat with 0%nat by (rewrite skipn_length; lia).
  cbn. apply app_nil_r.
Qed.
Lemma bin_ok k symtab : 0 <= k ->
  let '(file, tell, syms) := bin_file (2 ^ k) symtab in sections_ok (2 ^ k) symtab file tell syms.
Proof.
  intros Hk. unfold bin_file.
  enough (G : forall todo done_ st, (let '(file, tell, syms) := st in sections_ok (2 ^ k) done_ file tell syms) ->
    let '(file, tell, syms) := fold_left (bin_step (2 ^ k)) todo st in sections_ok (2 ^ k) (done_ ++ todo) file tell syms).
  { apply (G symtab [] ([], 0, [])). split; [reflexivity|]. split; [unfold zlen; cbn; lia|]. split; [|reflexivity].
    intros [|i] s b o H; discriminate. }
  induction todo as [|[s b] todo IH]; intros done_ [[file tell] syms] H0; cbn [fold_left]; [rewrite app_nil_r; exact H0|].
  replace (done_ ++ (s, b) :: todo) with ((done_ ++ [(s, b)]) ++ todo) by (rewrite <- app_assoc; reflexivity).
  apply IH. clear IH. unfold bin_step. cbn [fst snd].
  destruct H0 as (M & LF & SE & TE). destruct (C44_align_up tell k Hk) as (A1 & A2 & A3). cbv zeta in *. set (pos := align_up tell (2 ^ k)) in *.
  assert (HL : length syms = length done_) by (apply (f_equal (@length _)) in M; rewrite !map_length in M; exact M).
  assert (T0 : 0 <= tell) by (pose proof (zlen_nonneg file); lia).
  pose proof (zlen_nonneg b) as Hb.
  assert (WF : exists pre, write_at file pos b = file ++ pre /\ (b <> [] -> slice (write_at file pos b) pos (zlen b) = b) /\ zlen (write_at file pos b) <= pos + zlen b).
  { unfold write_at. destruct b as [|b0 b].
    - exists []. rewrite app_nil_r. split; [reflexivity|]. split; [congruence|]. lia.
    - eexists. split; [reflexivity|]. split.
      + intros _. unfold slice. rewrite app_assoc.
        replace (Z.to_nat pos) with (length (file ++ repeat 0 (Z.to_nat (pos - zlen file)))) by (rewrite app_length, repeat_length; unfold zlen in *; lia).
        rewrite skipn_app, skipn_all, Nat.sub_diag. cbn [app skipn]. unfold zlen. rewrite Nat2Z.id. apply firstn_all.
      + unfold zlen, byte in *. rewrite !app_length, repeat_length. lia. }
  destruct WF as (pre & WF1 & WF2 & WF3).
  split; [rewrite !map_app, M; reflexivity|]. split; [exact WF3|]. split.
  - intros i s' b' o Hs Ho.
    destruct (Nat.lt_ge_cases i (length done_)) as [Hi|Hi].
    + rewrite nth_error_app1 in Hs by exact Hi. rewrite nth_error_app1 in Ho by lia.
      destruct (SE i s' b' o Hs Ho) as (S1 & S2 & S3 & S4 & S5). split; [exact S1|]. split; [exact S2|]. split; [lia|]. split.
      * intros NE. rewrite WF1.
        assert (HF : o + zlen b' <= zlen file).
        { specialize (S4 NE). unfold slice in S4. apply (f_equal (@length _)) in S4. rewrite firstn_length, skipn_length in S4.
          assert (0 < length b')%nat by (destruct b'; [congruence|cbn; lia]). clear - S4 S2 H. unfold zlen, byte in *. lia. }
        rewrite slice_app_l; [apply S4; exact NE|exact S2|apply zlen_nonneg|exact HF].
      * destruct i as [|j]; [exact S5|]. rewrite !nth_error_app1 by lia. exact S5.
    + assert (i = length done_).
      { assert (HH : nth_error (done_ ++ [(s, b)]) i <> None) by congruence. apply nth_error_Some in HH. rewrite app_length in HH. cbn in HH. lia. }
      subst i. rewrite nth_error_app2, Nat.sub_diag in Hs by lia. injection Hs as <- <-.
      rewrite nth_error_app2 in Ho by lia. rewrite HL, Nat.sub_diag in Ho. injection Ho as <-.
      split; [exact A1|]. split; [lia|]. split; [lia|]. split; [exact WF2|].
      assert (PE : match length done_ with
        | O => 0 | S j => match nth_error (done_ ++ [(s, b)]) j, nth_error (syms ++ [(s, pos)]) j with Some (_, b'), Some (_, o') => o' + zlen b' | _, _ => 0 end end = tell).
      { rewrite TE. destruct (length done_) as [|j] eqn:EL.
        - destruct done_; [|discriminate]. destruct syms; [|discriminate]. reflexivity.
        - rewrite !nth_error_app1 by lia.
          destruct (exists_last (l := done_)) as (d' & [s1 b1] & ->); [intros ->; discriminate|].
          destruct (exists_last (l := syms)) as (y' & [s2 o2] & ->); [intros ->; discriminate|].
          rewrite !rev_app_distr. cbn [rev app]. rewrite app_length in EL. rewrite !app_length in HL. cbn [length] in EL, HL.
          rewrite !nth_error_app2 by lia. replace (j - length d')%nat with 0%nat by lia. replace (j - length y')%nat with 0%nat by lia. reflexivity. }
      rewrite PE. split; [exact A2|exact A3].
  - rewrite !rev_app_distr. reflexivity.
Qed.
Theorem C44_sections : forall k symtab, 0 <= k ->
  let '(file, _, syms) := bin_file (2 ^ k) symtab in
  map fst syms = map fst symtab /\
  forall i s b o, nth_error symtab i = Some (s, b) -> nth_error syms i = Some (s, o) ->
    (2 ^ k | o) /\ 0 <= o /\ (b <> [] -> slice file o (zlen b) = b) /\
    let previous_end := match i with O => 0 | S j => match nth_error symtab j, nth_error syms j with Some (_, b'), Some (_, o') => o' + zlen b' | _, _ => 0 end end in
    previous_end <= o /\ forall o', (2 ^ k | o') -> previous_end <= o' -> o <= o'.
Proof.
  intros k symtab Hk. pose proof (bin_ok k symtab Hk) as H. destruct (bin_file (2 ^ k) symtab) as [[file tell] syms].
  destruct H as (M & _ & SE & _). split; [exact M|]. intros i s b o Hs Ho.
  destruct (SE i s b o Hs Ho) as (S1 & S2 & _ & S4 & S5). split; [exact S1|]. split; [exact S2|]. split; [exact S4|exact S5].
Qed.
Print Assumptions C44_sections.
(** so that no two arrays share a byte *)
Theorem C44_disjoint : forall k symtab, 0 <= k ->
  let '(file, _, syms) := bin_file (2 ^ k) symtab in
  forall i j si bi oi sj bj oj, (i < j)%nat ->
    nth_error symtab i = Some (si, bi) -> nth_error syms i = Some (si, oi) ->
    nth_error symtab j = Some (sj, bj) -> nth_error syms j = Some (sj, oj) -> oi + zlen bi <= oj.
Proof.
  intros k symtab Hk. pose proof (C44_sections k symtab Hk) as H. destruct (bin_file (2 ^ k) symtab) as [[file tell] syms].
  destruct H as (M & H). intros i j si bi oi sj bj oj Hij Hsi Hoi. revert sj bj oj. induction Hij as [|j Hij IH]; intros sj bj oj Hsj Hoj.
  - destruct (H _ _ _ _ Hsj Hoj) as (_ & _ & _ & P & _). rewrite Hsi, Hoi in P. exact P.
  - destruct (H _ _ _ _ Hsj Hoj) as (_ & _ & _ & P & _). cbv zeta in P.
    assert (Lj : (j < length symtab)%nat) by (apply Nat.lt_trans with (S j); [lia|]; apply nth_error_Some; congruence).
    destruct (nth_error symtab j) as [[s b]|] eqn:E1; [|apply nth_error_None in E1; lia].
    assert (HN : nth_error (map fst syms) j = Some s) by (rewrite M; erewrite map_nth_error by exact E1; reflexivity).
    destruct (nth_error syms j) as [[s' o]|] eqn:E2.
    2:{ apply nth_error_None in E2. rewrite (proj2 (nth_error_None _ _)) in HN; [discriminate|]. rewrite map_length. exact E2. }
    assert (s' = s) by (erewrite map_nth_error in HN by exact E2; injection HN as HN; exact HN). subst s'.
    pose proof (IH _ _ _ eq_refl eq_refl) as IH'. pose proof (zlen_nonneg b). lia.
Qed.
Print Assumptions C44_disjoint.
Example C44_example : bin_file (2 ^ 2) [("a", [1; 2; 3; 4; 5]); ("b", [6]); ("c", [7; 8])]%string =
  ([1; 2; 3; 4; 5; 0; 0; 0; 6; 0; 0; 0; 7; 8], 14, [("a", 0); ("b", 8); ("c", 12)]%string).
Proof. reflexivity. Qed.

(** ** C54.  Quantised layers. *)
Lemma wrap_wrap_add w t p : 0 < w -> wrap w (t + wrap w p) = wrap w (t + p).
Proof.
  intros Hw. destruct (wrap_congr w p Hw) as (k & ->). unfold wrap.
  replace (t + (p + k * 2 ^ w) + 2 ^ (w - 1)) with (t + p + 2 ^ (w - 1) + k * 2 ^ w) by lia.
  rewrite Z.mod_add; [reflexivity|]. assert (0 < 2 ^ w) by (apply Z.pow_pos_nonneg; lia). lia.
Qed.
Lemma fits_mul16 d x y : 0 < d <= 16 -> fits d x -> fits d y -> fits 32 (x * y).
Proof.
  intros Hd Hx Hy.
  assert (M : 2 ^ (d - 1) <= 2 ^ 15) by (apply Z.pow_le_mono_r; lia). change (2 ^ 15) with 32768 in M.
  unfold fits in *. change (2 ^ (32 - 1)) with 2147483648.
  assert (Z.abs x <= 32768) by lia. assert (Z.abs y <= 32768) by lia.
  assert (Z.abs (x * y) <= 32768 * 32768) by (rewrite Z.abs_mul; apply Z.mul_le_mono_nonneg; lia). lia.
Qed.
Lemma fits_nth d (l : list Z) i : 0 < d -> Forall (fits d) l -> fits d (nthZ 0 l i).
Proof.
  intros Hd HF. unfold nthZ. destruct (rdl l i) as [v|] eqn:E.
  - unfold rdl in E. destruct (i <? 0); [discriminate|]. apply nth_error_In in E. rewrite Forall_forall in HF. apply HF. exact E.
  - unfold fits. assert (0 < 2 ^ (d - 1)) by (apply Z.pow_pos_nonneg; lia). lia.
Qed.

(** The C activation: the shifted and converted value through [act] (the
    expression of the wrapped activation), stored into an array of [d] bits. *)
Definition qact_c (w d s : Z) (act : Z -> Z) (z : Z) : Z :=
  match qshift_c w d s act z with Some v => wrap d v | None => 0 end.

(** A MatMul layer on operands of at most 16 bits: the generated code and the
    Python layer give the same integers, whatever overflows. *)
Theorem C54_matmul : forall d w s left right out C OH OW K act x y,
  0 < d <= 16 -> 0 < w -> 0 <= s < Z.max 32 w -> (forall z, fits d z -> fits d (act z)) ->
  out <> Temp -> left <> Temp -> right <> Temp -> 0 <= C -> 0 <= OH -> 0 <= OW -> 0 <= K ->
  zlen x = C * OH * K -> zlen y = C * K * OW -> Forall (fits d) x -> Forall (fits d) y ->
  layer_ok (matmul_c (c_int d w) left right out C OH OW K (qact_c w d s act)) [(left, x); (right, y)] out
    (C * OH * OW) (C * OH * OW)
    (matmul_py (py_int w) C C OH OW K (qshift_py d s act) x y).
Proof.
  intros d w s left right out C OH OW K act x y Hd Hw Hs Hact Ho Hl Hr HC HH HW HK Hx Hy Fx Fy.
  pose proof (matmul_ok (c_int d w) left right out C OH OW K (qact_c w d s act) x y Ho Hl Hr HC HH HW HK Hx Hy) as G.
  replace (matmul_py (py_int w) C C OH OW K (qshift_py d s act) x y) with (matmul_py (c_int d w) C C OH OW K (qact_c w d s act) x y); [exact G|].
  unfold matmul_py. rewrite (map_ext (qact_c w d s act) (qshift_py d s act)).
  2:{ intros z. unfold qact_c. rewrite C43_shift_c_equals_python by exact Hs. unfold qshift_py.
      apply wrap_fits; [lia|]. apply Hact. apply fits_wrap. lia. }
  apply (f_equal (map (qshift_py d s act))). apply tab3_ext; auto. intros f i j _ _ _. unfold nsum. cbn [c_int py_int T n0 nadd nmul].
  apply iterZ_ext. intros k t _. rewrite wrap_wrap_add by exact Hw.
  rewrite (wrap_fits (Z.max 32 d)); [reflexivity|lia|]. rewrite Z.max_l by lia.
  apply (fits_mul16 d); [exact Hd|apply fits_nth; [lia|exact Fx]|apply fits_nth; [lia|exact Fy]].
Qed.
Print Assumptions C54_matmul.
Definition relu_z (z : Z) : Z := if 0 <? z then z else 0.
Example C54_matmul_example :
  (forall z, fits 16 z -> fits 16 (relu_z z)) /\
  result_of (matmul_c (c_int 16 32) (Out 0) (Cst 0) (Out 0) 1 1 2 2 (qact_c 32 16 17 relu_z)
    (mem_of [(Out 0, [16384; -32768]); (Cst 0, [16384; 8192; 0; 32767]); (Temp, [0;0])])) (Out 0) 2 = Some [2048; 0] /\
  matmul_py (py_int 32) 1 1 1 2 2 (qshift_py 16 17 relu_z) [16384; -32768] [16384; 8192; 0; 32767] = [2048; 0].
Proof. split; [|split; reflexivity]. intros z H. unfold relu_z. destruct (0 <? z); [exact H|unfold fits; cbn; lia]. Qed.

(** Without overflow of the accumulator, and when the output fits, each output is
    the exact sum of products, shifted. *)
Theorem C54_matmul_value : forall d w s act K (t : Z -> Z), 0 < d -> 0 < w -> 0 <= K ->
  nsum Znum K (fun k => Z.abs (t k)) < 2 ^ (w - 1) ->
  fits d (Z.shiftr (nsum Znum K t) s) ->
  qshift_py d s act (nsum (py_int w) K t) = act (Z.shiftr (nsum Znum K t) s).
Proof.
  intros d w s act K t Hd Hw HK HB HF. unfold qshift_py.
  assert (G : forall n, 0 <= n <= K -> nsum (py_int w) n t = nsum Znum n t /\
              Z.abs (nsum Znum n t) <= nsum Znum n (fun k => Z.abs (t k)) <= nsum Znum K (fun k => Z.abs (t k))).
  { intros n [H0 H1]. split.
    - assert (G : forall j, 0 <= j -> j <= n -> nsum (py_int w) j t = nsum Znum j t /\ Z.abs (nsum Znum j t) <= nsum Znum j (fun k => Z.abs (t k))).
      { intros j Hj. pattern j. apply natlike_ind; [..|exact Hj].
        - intros _. rewrite !nsum_0 by lia. cbn. split; [reflexivity|lia].
        - clear j Hj. intros j Hj IH Hn. destruct IH as (I1 & I2); [lia|]. unfold Z.succ. rewrite !nsum_succ by lia. rewrite I1.
          cbn [py_int Znum T nadd]. split; [|lia]. apply wrap_fits; [exact Hw|].
          assert (MONO : nsum Znum (j + 1) (fun k => Z.abs (t k)) <= nsum Znum K (fun k => Z.abs (t k))).
          { assert (MM : forall a, 0 <= a -> j + 1 + a <= K -> nsum Znum (j + 1) (fun k => Z.abs (t k)) <= nsum Znum (j + 1 + a) (fun k => Z.abs (t k))).
            { intros a Ha. pattern a. apply natlike_ind; [..|exact Ha]; [rewrite Z.add_0_r; lia|]. clear a Ha. intros a Ha IHa Hle.
              replace (j + 1 + Z.succ a) with (j + 1 + a + 1) by lia. rewrite (nsum_succ Znum (j + 1 + a)) by lia.
              specialize (IHa ltac:(lia)). cbn [Znum T nadd] in *. lia. }
            specialize (MM (K - (j + 1)) ltac:(lia) ltac:(lia)). replace (j + 1 + (K - (j + 1))) with K in MM by lia. exact MM. }
          rewrite (nsum_succ Znum j) in MONO by lia. cbn [Znum T nadd] in *. unfold fits. lia. }
      apply G; lia.
    - split.
      + pattern n. apply natlike_ind; [..|exact H0]; [rewrite !nsum_0 by lia; cbn; lia|]. clear n H0 H1. intros j Hj IH.
        unfold Z.succ. rewrite !nsum_succ by lia. cbn [Znum T nadd] in *. lia.
      + assert (MM : forall a, 0 <= a -> nsum Znum n (fun k => Z.abs (t k)) <= nsum Znum (n + a) (fun k => Z.abs (t k))).
        { intros a Ha. pattern a. apply natlike_ind; [..|exact Ha]; [rewrite Z.add_0_r; lia|]. clear a Ha. intros a Ha IHa.
          replace (n + Z.succ a) with (n + a + 1) by lia. rewrite (nsum_succ Znum (n + a)) by lia.
          cbn [Znum T nadd] in *. lia. }
        specialize (MM (K - n) ltac:(lia)). replace (n + (K - n)) with K in MM by lia. exact MM. }
  destruct (G K) as (-> & _); [lia|]. rewrite wrap_fits by assumption. reflexivity.
Qed.
Print Assumptions C54_matmul_value.

(** With 32-bit data and a 64-bit accumulator, the C product is computed in
    32 bits and the numpy one in 64. *)
Theorem C54_wide_data_refuted : exists s x y, fits 32 x /\ fits 32 y /\
  result_of (matmul_c (c_int 32 64) (Out 0) (Cst 0) (Out 0) 1 1 1 1 (qact_c 64 32 s (fun z => z))
    (mem_of [(Out 0, [x]); (Cst 0, [y]); (Temp, [0])])) (Out 0) 1 = Some [0] /\
  matmul_py (py_int 64) 1 1 1 1 1 (qshift_py 32 s (fun z => z)) [x] [y] = [1].
Proof. exists 32, (2 ^ 16), (2 ^ 16). split; [unfold fits; cbn; lia|]. split; [unfold fits; cbn; lia|]. split; reflexivity. Qed.
Print Assumptions C54_wide_data_refuted.

(** An Add layer: the C code stores the sum into the [d]-bit output, the Python
    layer keeps it in the temporary type.  They agree when the sum fits... *)
Theorem C54_add_partial : forall d w act a b, 0 < d <= 16 -> 32 <= w -> fits d a -> fits d b ->
  (forall z, fits d z -> fits d (act z)) -> fits d (a + b) -> qadd_c d w act a b = qadd_py w act a b.
Proof.
  intros d w act a b Hd Hw Ha Hb Hact Hs. unfold qadd_c, qadd_py.
  assert (UP : forall n z, d <= n -> fits d z -> fits n z).
  { intros n z Hn Hz. unfold fits in *. assert (2 ^ (d - 1) <= 2 ^ (n - 1)) by (apply Z.pow_le_mono_r; lia). lia. }
  rewrite !(wrap_fits w a), (wrap_fits (Z.max 32 d) (a + b)), (wrap_fits w (a + b)) by (try lia; apply UP; try lia; assumption).
  apply wrap_fits; [lia|]. apply Hact. exact Hs.
Qed.
Print Assumptions C54_add_partial.
(** ... and differ as soon as it does not. *)
Theorem C54_add_refuted : forall d w a b, 0 < d <= 16 -> 32 <= w -> fits d a -> fits d b -> ~ fits d (a + b) ->
  qadd_c d w (fun z => z) a b <> qadd_py w (fun z => z) a b.
Proof.
  intros d w a b Hd Hw Ha Hb Hn E. apply Hn. unfold qadd_c, qadd_py in E.
  assert (M : 2 ^ (d - 1) <= 2 ^ 15) by (apply Z.pow_le_mono_r; lia). change (2 ^ 15) with 32768 in M.
  assert (M2 : 2 ^ 31 <= 2 ^ (w - 1)) by (apply Z.pow_le_mono_r; lia). change (2 ^ 31) with 2147483648 in M2.
  unfold fits in Ha, Hb.
  rewrite (wrap_fits w a), (wrap_fits w (a + b)) in E by (unfold fits; lia).
  rewrite <- E. apply fits_wrap. lia.
Qed.
Print Assumptions C54_add_refuted.
Example C54_add_example : fits 16 30000 /\ qadd_c 16 32 (fun z => z) 30000 30000 = -5536 /\ qadd_py 32 (fun z => z) 30000 30000 = 60000.
Proof. split; [unfold fits; cbn; lia|]. split; reflexivity. Qed.
