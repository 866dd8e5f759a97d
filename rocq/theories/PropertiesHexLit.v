(** * C74: the constants written in the generated files are exact.
    The files hold the parameters as hexadecimal floating constants
    (neural_network.py:593-601).  What the C compiler reads, and what
    float.fromhex reads when the outputs are compared, is the number written. *)
From Coq Require Import String Ascii.
From Coq Require Import ZArith List Lia Bool QArith Qpower.
Import ListNotations.
Open Scope Z_scope.
From Verif Require Import HexLit HexLitProofs.

(** For every finite binary64 number [d], of value [v]: the text is a C
    hexadecimal constant whose value is [v], and float.fromhex reads [v]. *)
Theorem C74_literals_exact :
  forall (d : double) (v : Q), binary64 d -> value d = Some v ->
    (exists u, c_value (data2c d) = Some u /\ (u == v)%Q) /\
    (exists u, fromhex (data2c d) = Some u /\ (u == v)%Q).
Proof. exact literal_exact. Qed.
Print Assumptions C74_literals_exact.

(** Two numbers with the same text have the same value. *)
Theorem C74_literals_injective :
  forall d1 d2 v1 v2, binary64 d1 -> binary64 d2 -> value d1 = Some v1 -> value d2 = Some v2 ->
    data2c d1 = data2c d2 -> (v1 == v2)%Q.
Proof.
  intros d1 d2 v1 v2 B1 B2 V1 V2 E.
  destruct (literal_exact d1 v1 B1 V1) as ((u1 & C1 & E1) & _). destruct (literal_exact d2 v2 B2 V2) as ((u2 & C2 & E2) & _).
  rewrite E in C1. rewrite C1 in C2. injection C2 as ->. rewrite <- E1, <- E2. reflexivity.
Qed.
Print Assumptions C74_literals_injective.

(** An infinite or NaN parameter is written as a text that is no constant. *)
Theorem C74_not_finite_refuted :
  (forall neg, c_value (data2c (DInf neg)) = None) /\ c_value (data2c DNan) = None /\
  data2c (DInf true) = "-inf"%string /\ data2c DNan = "nan"%string.
Proof. split; [intros [|]; reflexivity|]. repeat split; reflexivity. Qed.
Print Assumptions C74_not_finite_refuted.

(** Non-vacuity: a number whose last digits are dropped, one whose digits are
    kept, the least subnormal one. *)
Example C74_example :
  binary64 (DFinite true 1 (16 ^ 12 * 5) (-12)) /\ data2c (DFinite true 1 (16 ^ 12 * 5) (-12)) = "-0x1.500000p-12"%string /\
  value (DFinite true 1 (16 ^ 12 * 5) (-12)) = Some (inject_Z (- (16 ^ 13 + 16 ^ 12 * 5)) * Qpower 2 (-64))%Q /\
  binary64 (DFinite false 1 0x999999999999a (-4)) /\ data2c (DFinite false 1 0x999999999999a (-4)) = "0x1.999999999999ap-4"%string /\
  binary64 (DFinite false 0 1 (-1022)) /\ data2c (DFinite false 0 1 (-1022)) = "0x0.0000000000001p-1022"%string /\
  data2c (DZero true) = "-0x0.0p+0"%string.
Proof. repeat split; try reflexivity; try (cbn; lia). Qed.
