(** * The reals satisfy every law used in the theorems. *)
From Coq Require Import ZArith Reals Lra Lia List Bool.
From Verif Require Import CMem Tensor Num.
Import ListNotations.

Definition Rltb (x y : R) : bool := if Rlt_dec x y then true else false.
Definition Rnum : num :=
  mkNum R 0%R 1%R Rplus Rminus Rmult Rdiv Rltb exp sqrt ln tanh IZR.

Theorem Rnum_field : field_laws Rnum.
Proof.
  constructor; [constructor|..]; cbn [T n0 n1 nadd nsub nmul ndiv Rnum]; intros; try ring; unfold Rdiv; try ring.
  rewrite Rmult_assoc, Rinv_l by assumption. ring.
Qed.
Print Assumptions Rnum_field.
