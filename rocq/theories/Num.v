(** * Numbers of the generated code.
    The element type of tensors is abstract: [T] with the operations the
    templates use.  Nothing is assumed about them unless a theorem says so
    through one of the [*_laws] records.  In particular floating-point
    instances are allowed wherever no law is required. *)
From Coq Require Import ZArith List Lia Bool.
From Verif Require Import CMem Tensor.
Open Scope Z_scope.

Record num := mkNum {
  T : Type;
  n0 : T; n1 : T;
  nadd : T -> T -> T; nsub : T -> T -> T; nmul : T -> T -> T; ndiv : T -> T -> T;
  nlt : T -> T -> bool;            (* C's and numpy's < *)
  nexp : T -> T; nsqrt : T -> T; nlog : T -> T; ntanh : T -> T;
  nofZ : Z -> T                    (* conversion of an integer *)
}.

Record ring_laws (N : num) : Prop := {
  add_comm : forall a b, nadd N a b = nadd N b a;
  add_assoc : forall a b c, nadd N a (nadd N b c) = nadd N (nadd N a b) c;
  add_0_l : forall a, nadd N (n0 N) a = a;
  mul_comm : forall a b, nmul N a b = nmul N b a;
  mul_assoc : forall a b c, nmul N a (nmul N b c) = nmul N (nmul N a b) c;
  mul_1_l : forall a, nmul N (n1 N) a = a;
  mul_0_l : forall a, nmul N (n0 N) a = n0 N;
  mul_add_distr_l : forall a b c, nmul N a (nadd N b c) = nadd N (nmul N a b) (nmul N a c);
  sub_add : forall a b, nadd N (nsub N a b) b = a
}.

(** Division by a fixed number is linear; [x/y] undoes multiplication by a non-zero [y]. *)
Record field_laws (N : num) : Prop := {
  fl_ring : ring_laws N;
  div_mul : forall a b c, ndiv N (nmul N a b) c = nmul N a (ndiv N b c);
  div_add : forall a b c, ndiv N (nadd N a b) c = nadd N (ndiv N a c) (ndiv N b c);
  div_cancel : forall a b, b <> n0 N -> nmul N (ndiv N a b) b = a
}.

(** Left-to-right summation, the order of the C loops. *)
Definition nsum (N : num) (n : Z) (f : Z -> T N) : T N :=
  iterZ n (fun k s => nadd N s (f k)) (n0 N).

Lemma nsum_ext N n f g : (forall k, 0 <= k < n -> f k = g k) -> nsum N n f = nsum N n g.
Proof. intros H. apply iterZ_ext. intros i x Hi. rewrite H by exact Hi. reflexivity. Qed.

Lemma nsum_0 N n f : n <= 0 -> nsum N n f = n0 N.
Proof. intros H. apply iterZ_0. exact H. Qed.

Lemma nsum_succ N n f : 0 <= n -> nsum N (n + 1) f = nadd N (nsum N n f) (f n).
Proof. intros H. unfold nsum. rewrite iterZ_succ by exact H. reflexivity. Qed.

Lemma sum_loop N n (body : Z -> T N -> option (T N)) t :
  (forall k s, 0 <= k < n -> body k s = Some (nadd N s (t k))) ->
  for_ n body (n0 N) = Some (nsum N n t).
Proof. intros H. apply for_pure. exact H. Qed.

Section Laws.
  Context (N : num) (L : ring_laws N).
  Local Infix "+" := (nadd N). Local Infix "*" := (nmul N).

  Lemma mul_0_r a : a * n0 N = n0 N.
  Proof. rewrite (mul_comm N L). apply (mul_0_l N L). Qed.
  Lemma add_0_r a : a + n0 N = a.
  Proof. rewrite (add_comm N L). apply (add_0_l N L). Qed.
  Lemma mul_1_r a : a * n1 N = a.
  Proof. rewrite (mul_comm N L). apply (mul_1_l N L). Qed.
  Lemma mul_add_distr_r a b c : (a + b) * c = a * c + b * c.
  Proof. rewrite !(mul_comm N L _ c). apply (mul_add_distr_l N L). Qed.
  Lemma add_sub a b : nsub N (a + b) b = a.
  Proof.
    pose proof (sub_add N L (a + b) b) as H.
    (* cancel b on the right *)
    assert (C : forall x y, x + b = y + b -> x = y).
    { intros x y E. rewrite <- (add_0_r x), <- (add_0_r y).
      assert (Z0 : b + (nsub N (n0 N) b) = n0 N).
      { rewrite (add_comm N L). apply (sub_add N L). }
      rewrite <- Z0. rewrite !(add_assoc N L), E. reflexivity. }
    apply C. exact H.
  Qed.

  Lemma nsum_mul_l n a f : nmul N a (nsum N n f) = nsum N n (fun k => a * f k).
  Proof.
    destruct (Z_le_gt_dec n 0) as [Hn|Hn]; [rewrite !nsum_0 by lia; apply mul_0_r|].
    assert (G : forall k, 0 <= k -> k <= n -> a * nsum N k f = nsum N k (fun k => a * f k)).
    { intros k Hk. pattern k. revert k Hk. apply for_ind.
      - intros _. rewrite !nsum_0 by lia. apply mul_0_r.
      - intros k Hk IH Hkn. rewrite !nsum_succ by lia. rewrite (mul_add_distr_l N L), IH by lia. reflexivity. }
    apply G; lia.
  Qed.
  Lemma nsum_mul_r n a f : nmul N (nsum N n f) a = nsum N n (fun k => f k * a).
  Proof.
    rewrite (mul_comm N L), nsum_mul_l. apply nsum_ext. intros k _. apply (mul_comm N L).
  Qed.

  Lemma nsum_add n f g : nsum N n f + nsum N n g = nsum N n (fun k => f k + g k).
  Proof.
    destruct (Z_le_gt_dec n 0) as [Hn|Hn]; [rewrite !nsum_0 by lia; apply (add_0_l N L)|].
    assert (G : forall k, 0 <= k -> k <= n -> nsum N k f + nsum N k g = nsum N k (fun k => f k + g k)).
    { intros k Hk. pattern k. revert k Hk. apply for_ind.
      - intros _. rewrite !nsum_0 by lia. apply (add_0_l N L).
      - intros k Hk IH Hkn. rewrite !nsum_succ by lia. rewrite <- IH by lia.
        rewrite <- !(add_assoc N L). f_equal. rewrite !(add_assoc N L). f_equal. apply (add_comm N L). }
    apply G; lia.
  Qed.

  Lemma nsum_zero n f : (forall k, 0 <= k < n -> f k = n0 N) -> nsum N n f = n0 N.
  Proof.
    intros H. destruct (Z_le_gt_dec n 0) as [Hn|Hn]; [apply nsum_0; lia|].
    assert (G : forall k, 0 <= k -> k <= n -> nsum N k f = n0 N).
    { intros k Hk. pattern k. revert k Hk. apply for_ind.
      - intros _. apply nsum_0. lia.
      - intros k Hk IH Hkn. rewrite nsum_succ by lia. rewrite IH, H by lia. apply (add_0_l N L). }
    apply G; lia.
  Qed.

  Lemma nsum_split a b f : 0 <= a -> 0 <= b ->
    nsum N (Z.add a b) f = nsum N a f + nsum N b (fun k => f (Z.add a k)).
  Proof.
    intros Ha. revert b. apply for_ind.
    - rewrite Z.add_0_r. rewrite (nsum_0 N 0) by lia. rewrite add_0_r. reflexivity.
    - intros b Hb IH. rewrite Z.add_assoc. rewrite !nsum_succ by lia. rewrite IH.
      symmetry. apply (add_assoc N L).
  Qed.

  (** A double sum is a flat sum in row-major order. *)
  Lemma nsum_nest a b f : 0 <= a -> 0 <= b ->
    nsum N a (fun i => nsum N b (f i)) = nsum N (Z.mul a b) (fun k => f (Z.div k b) (Z.modulo k b)).
  Proof.
    intros Ha Hb. revert a Ha. apply for_ind.
    - rewrite !nsum_0 by lia. reflexivity.
    - intros n Hn IH. rewrite nsum_succ by lia. rewrite IH.
      replace (Z.mul (Z.add n 1) b) with (Z.add (Z.mul n b) b) by ring.
      rewrite nsum_split by nia. f_equal. apply nsum_ext. intros i Hi.
      rewrite Z.div_add_l by lia. rewrite Z.div_small by lia. rewrite Z.add_0_r.
      rewrite (Z.add_comm (Z.mul n b)), Z_mod_plus_full, Z.mod_small by lia. reflexivity.
  Qed.

  Lemma nsum_swap a b f : 0 <= a ->
    nsum N a (fun i => nsum N b (f i)) = nsum N b (fun j => nsum N a (fun i => f i j)).
  Proof.
    revert a. apply for_ind.
    - rewrite nsum_0 by lia. symmetry. apply nsum_zero. intros. apply nsum_0. lia.
    - intros n Hn IH. rewrite nsum_succ by lia. rewrite IH. rewrite nsum_add. apply nsum_ext.
      intros k Hk. rewrite nsum_succ by lia. reflexivity.
  Qed.
End Laws.

(** The laws give Coq's [ring] tactic. *)
From Coq Require Import Ring.
Section RingTheory.
  Context (N : num) (L : ring_laws N).
  Definition nopp (x : T N) : T N := nsub N (n0 N) x.
  Lemma opp_def x : nadd N x (nopp x) = n0 N.
  Proof. unfold nopp. rewrite (add_comm N L). apply (sub_add N L). Qed.
  Lemma sub_def x y : nsub N x y = nadd N x (nopp y).
  Proof.
    rewrite <- (add_sub N L (nadd N x (nopp y)) y). f_equal.
    rewrite <- (add_assoc N L), (add_comm N L (nopp y)), opp_def. symmetry. apply (add_0_r N L).
  Qed.
  Lemma num_ring_theory : ring_theory (n0 N) (n1 N) (nadd N) (nmul N) (nsub N) nopp eq.
  Proof.
    constructor.
    - apply (add_0_l N L). - apply (add_comm N L). - apply (add_assoc N L).
    - apply (mul_1_l N L). - apply (mul_comm N L). - apply (mul_assoc N L).
    - apply (mul_add_distr_r N L). - apply sub_def. - apply opp_def.
  Qed.
End RingTheory.
