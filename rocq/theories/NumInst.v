(** * Concrete number types for the examples: integers and rationals.  The
    reals are in RealInst.v. *)
From Coq Require Import ZArith QArith Qcanon Lia List Bool.
From Verif Require Import CMem Tensor Num.
Import ListNotations.

(** Integers; exp, sqrt, log and tanh are irrelevant placeholders here. *)
Definition Znum : num :=
  mkNum Z 0%Z 1%Z Z.add Z.sub Z.mul Z.div Z.ltb (fun x => x) (fun x => x) (fun x => x) (fun x => x) (fun x => x).

Lemma Znum_ring : ring_laws Znum.
Proof. constructor; cbn [T n0 n1 nadd nsub nmul Znum]; intros; ring. Qed.

(** Rationals in canonical form. *)
Definition Qcltb (x y : Qc) : bool := match Qccompare x y with Lt => true | _ => false end.
Definition Qcnum : num :=
  mkNum Qc 0%Qc 1%Qc Qcplus Qcminus Qcmult Qcdiv Qcltb (fun x => x) (fun x => x) (fun x => x) (fun x => x)
    (fun z => Q2Qc (inject_Z z)).

Lemma Qcnum_field : field_laws Qcnum.
Proof.
  constructor; [constructor|..]; cbn [T n0 n1 nadd nsub nmul ndiv Qcnum]; intros; try ring; unfold Qcdiv; try ring.
  rewrite <- Qcmult_assoc, (Qcmult_comm (/ b)), Qcmult_inv_r by assumption. ring.
Qed.
