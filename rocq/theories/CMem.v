(** * Memory and loop model for the generated C code.

    The generated inference code (src/acetone_nnet/templates/template_source_file.c.tpl,
    src/acetone_nnet/templates/template_header_file.c.tpl) works on a context
    structure [ctx] holding the arrays [output_k], [cst_k] and [tensor_temp].
    A C program is modelled as a function [mem -> option mem]; [None] means
    that some array access fell outside its array.  Indices are mathematical
    integers ([Z]); C [int] overflow is not modelled. *)
From Coq Require Import ZArith List Lia Bool.
Import ListNotations.
Open Scope Z_scope.

Definition bind {A B} (o : option A) (f : A -> option B) : option B :=
  match o with Some a => f a | None => None end.
Notation "x <- e1 ;; e2" := (bind e1 (fun x => e2))
  (at level 100, e1 at next level, right associativity).

(** ** C for-loops: [for (i = 0; i < n; ++i) body] *)
Section Loop.
  Context {S : Type}.
  Fixpoint loop (n : nat) (body : Z -> S -> option S) (s : S) : option S :=
    match n with
    | O => Some s
    | Datatypes.S n' => bind (loop n' body s) (body (Z.of_nat n'))
    end.
  Definition for_ (n : Z) (body : Z -> S -> option S) (s : S) : option S :=
    loop (Z.to_nat n) body s.

  Lemma for_0 n body s : n <= 0 -> for_ n body s = Some s.
  Proof. intros H. unfold for_. replace (Z.to_nat n) with O by lia. reflexivity. Qed.

  Lemma for_succ n body s : 0 <= n ->
    for_ (n + 1) body s = bind (for_ n body s) (body n).
  Proof.
    intros H. unfold for_. replace (Z.to_nat (n + 1)) with (Datatypes.S (Z.to_nat n)) by lia.
    cbn. rewrite Z2Nat.id by lia. reflexivity.
  Qed.

  Lemma for_ind (P : Z -> Prop) :
    P 0 -> (forall n, 0 <= n -> P n -> P (n + 1)) -> forall n, 0 <= n -> P n.
  Proof. intros H0 HS n Hn. apply natlike_ind; auto. Qed.

  (** Invariant rule: the loop terminates without fault and establishes [P n]. *)
  Lemma for_inv (P : Z -> S -> Prop) n body s :
    0 <= n -> P 0 s ->
    (forall i s, 0 <= i < n -> P i s -> exists s', body i s = Some s' /\ P (i + 1) s') ->
    exists s', for_ n body s = Some s' /\ P n s'.
  Proof.
    intros Hn H0 HS.
    assert (G : forall k, 0 <= k -> k <= n -> exists s', for_ k body s = Some s' /\ P k s').
    { intros k Hk. pattern k. revert k Hk. apply for_ind.
      - intros _. exists s. split; [apply for_0; lia | exact H0].
      - intros k Hk IH Hkn. destruct IH as (s1 & E1 & P1); [lia|].
        destruct (HS k s1) as (s2 & E2 & P2); [lia | exact P1 |].
        exists s2. rewrite for_succ by lia. rewrite E1. cbn. split; assumption. }
    apply G; lia.
  Qed.

  Lemma for_ext n b1 b2 s :
    (forall i s, 0 <= i < n -> b1 i s = b2 i s) -> for_ n b1 s = for_ n b2 s.
  Proof.
    intros H. destruct (Z_le_gt_dec n 0) as [Hn|Hn].
    - rewrite !for_0 by lia. reflexivity.
    - assert (G : forall k, 0 <= k -> k <= n -> for_ k b1 s = for_ k b2 s).
      { intros k Hk. pattern k. revert k Hk. apply for_ind.
        - intros _. rewrite !for_0 by lia. reflexivity.
        - intros k Hk IH Hkn. rewrite !for_succ by lia. rewrite IH by lia.
          destruct (for_ k b2 s); cbn; [apply H; lia | reflexivity]. }
      apply G; lia.
  Qed.

  Lemma for_split a b body s : 0 <= a -> 0 <= b ->
    for_ (a + b) body s = bind (for_ a body s) (for_ b (fun i => body (a + i))).
  Proof.
    intros Ha Hb. revert b Hb.
    apply (for_ind (fun b => for_ (a + b) body s = bind (for_ a body s) (for_ b (fun i => body (a + i))))).
    - rewrite Z.add_0_r. destruct (for_ a body s); cbn [bind]; [rewrite for_0 by lia|]; reflexivity.
    - intros n Hn IH. replace (a + (n + 1)) with ((a + n) + 1) by lia.
      rewrite for_succ by lia. rewrite IH. destruct (for_ a body s); cbn [bind]; [|reflexivity].
      rewrite for_succ by lia. reflexivity.
  Qed.

  (** A rectangular loop nest is a single flat loop in row-major order. *)
  Lemma for_nest a b (body : Z -> Z -> S -> option S) s : 0 <= a -> 0 <= b ->
    for_ a (fun i => for_ b (body i)) s = for_ (a * b) (fun k => body (k / b) (k mod b)) s.
  Proof.
    intros Ha Hb. revert a Ha.
    apply (for_ind (fun a => for_ a (fun i => for_ b (body i)) s
                             = for_ (a * b) (fun k => body (k / b) (k mod b)) s)).
    - rewrite !for_0 by lia. reflexivity.
    - intros n Hn IH. rewrite for_succ by lia. rewrite IH.
      replace ((n + 1) * b) with (n * b + b) by lia. rewrite for_split by nia.
      destruct (for_ (n * b) _ s) as [s1|]; cbn [bind]; [|reflexivity].
      apply for_ext. intros i s2 Hi.
      rewrite Z.div_add_l by lia. rewrite Z.div_small by lia. rewrite Z.add_0_r.
      replace (n * b + i) with (i + n * b) by lia. rewrite Z_mod_plus_full.
      rewrite Z.mod_small by lia. reflexivity.
  Qed.

  Lemma for_nest3 a b c (body : Z -> Z -> Z -> S -> option S) s : 0 <= a -> 0 <= b -> 0 <= c ->
    for_ a (fun f => for_ b (fun i => for_ c (body f i))) s
    = for_ (a * b * c) (fun k => body (k / (b * c)) ((k / c) mod b) (k mod c)) s.
  Proof.
    intros Ha Hb Hc.
    rewrite (for_nest a b (fun f i => for_ c (body f i))) by assumption.
    rewrite (for_nest (a * b) c (fun p j => body (p / b) (p mod b) j)) by nia.
    apply for_ext. intros k s' Hk.
    assert (0 < c) by nia.
    rewrite Z.mul_comm with (n := b). rewrite Z.div_div by nia. reflexivity.
  Qed.
End Loop.

(** Pure iteration and sums (used to describe scalar accumulators). *)
Fixpoint itern {A} (n : nat) (g : Z -> A -> A) (a : A) : A :=
  match n with O => a | S n' => g (Z.of_nat n') (itern n' g a) end.
Definition iterZ {A} (n : Z) (g : Z -> A -> A) (a : A) : A := itern (Z.to_nat n) g a.

Lemma iterZ_0 {A} n g (a : A) : n <= 0 -> iterZ n g a = a.
Proof. intros H. unfold iterZ. replace (Z.to_nat n) with O by lia. reflexivity. Qed.

Lemma iterZ_succ {A} n g (a : A) : 0 <= n -> iterZ (n + 1) g a = g n (iterZ n g a).
Proof.
  intros H. unfold iterZ. replace (Z.to_nat (n + 1)) with (S (Z.to_nat n)) by lia.
  cbn. rewrite Z2Nat.id by lia. reflexivity.
Qed.

Lemma iterZ_ext {A} n g1 g2 (a : A) :
  (forall i x, 0 <= i < n -> g1 i x = g2 i x) -> iterZ n g1 a = iterZ n g2 a.
Proof.
  intros H. destruct (Z_le_gt_dec n 0) as [Hn|Hn]; [rewrite !iterZ_0 by lia; reflexivity|].
  assert (G : forall k, 0 <= k -> k <= n -> iterZ k g1 a = iterZ k g2 a).
  { intros k Hk. pattern k. revert k Hk. apply for_ind.
    - intros _. rewrite !iterZ_0 by lia. reflexivity.
    - intros k Hk IH Hkn. rewrite !iterZ_succ by lia. rewrite IH by lia. apply H. lia. }
  apply G; lia.
Qed.

(** A loop whose body never faults is a pure iteration. *)
Lemma for_pure {A} n (body : Z -> A -> option A) g a :
  (forall i x, 0 <= i < n -> body i x = Some (g i x)) ->
  for_ n body a = Some (iterZ n g a).
Proof.
  intros H. destruct (Z_le_gt_dec n 0) as [Hn|Hn].
  - rewrite for_0, iterZ_0 by lia. reflexivity.
  - assert (G : forall k, 0 <= k -> k <= n -> for_ k body a = Some (iterZ k g a)).
    { intros k Hk. pattern k. revert k Hk. apply for_ind.
      - intros _. rewrite for_0, iterZ_0 by lia. reflexivity.
      - intros k Hk IH Hkn. rewrite for_succ, iterZ_succ by lia. rewrite IH by lia. cbn.
        apply H. lia. }
    apply G; lia.
Qed.

(** ** Arrays *)
Definition zlen {A} (l : list A) : Z := Z.of_nat (length l).

Definition rdl {A} (l : list A) (i : Z) : option A :=
  if i <? 0 then None else nth_error l (Z.to_nat i).

Definition wrl {A} (l : list A) (i : Z) (v : A) : option (list A) :=
  if (0 <=? i) && (i <? zlen l)
  then Some (firstn (Z.to_nat i) l ++ v :: skipn (Z.to_nat i + 1) l)
  else None.

Lemma zlen_nonneg {A} (l : list A) : 0 <= zlen l.
Proof. unfold zlen. lia. Qed.

Lemma zlen_app {A} (l r : list A) : zlen (l ++ r) = zlen l + zlen r.
Proof. unfold zlen. rewrite app_length. lia. Qed.

Lemma zlen_cons {A} x (l : list A) : zlen (x :: l) = 1 + zlen l.
Proof. unfold zlen. cbn [length]. lia. Qed.

Lemma zlen_nil {A} : zlen (@nil A) = 0.
Proof. reflexivity. Qed.

Lemma rdl_some {A} (l : list A) i : 0 <= i < zlen l -> exists v, rdl l i = Some v.
Proof.
  intros H. unfold rdl, zlen in *. destruct (Z.ltb_spec i 0); [lia|].
  destruct (nth_error l (Z.to_nat i)) eqn:E; [eauto|].
  apply nth_error_None in E. lia.
Qed.

Lemma rdl_range {A} (l : list A) i v : rdl l i = Some v -> 0 <= i < zlen l.
Proof.
  unfold rdl, zlen. destruct (Z.ltb_spec i 0); [discriminate|]. intros E.
  assert (nth_error l (Z.to_nat i) <> None) by congruence.
  apply nth_error_Some in H0. lia.
Qed.

Lemma rdl_none {A} (l : list A) i : i < 0 \/ zlen l <= i -> rdl l i = None.
Proof.
  intros H. unfold rdl, zlen in *. destruct (Z.ltb_spec i 0); [reflexivity|].
  apply nth_error_None. lia.
Qed.

Lemma rdl_app_l {A} (l r : list A) i : i < zlen l -> rdl (l ++ r) i = rdl l i.
Proof.
  intros H. unfold rdl, zlen in *. destruct (Z.ltb_spec i 0); [reflexivity|].
  apply nth_error_app1. lia.
Qed.

Lemma rdl_app_r {A} (l r : list A) i : zlen l <= i -> rdl (l ++ r) i = rdl r (i - zlen l).
Proof.
  intros H. unfold rdl, zlen in *. destruct (Z.ltb_spec i 0); [lia|].
  destruct (Z.ltb_spec (i - Z.of_nat (length l)) 0); [lia|].
  rewrite nth_error_app2 by lia. f_equal. lia.
Qed.

Lemma list_ext {A} (l r : list A) :
  zlen l = zlen r -> (forall k, 0 <= k < zlen l -> rdl l k = rdl r k) -> l = r.
Proof.
  revert r. induction l as [|x l IH]; intros [|y r] Hl H; try reflexivity.
  - rewrite zlen_cons, zlen_nil in Hl. pose proof (zlen_nonneg r). lia.
  - rewrite zlen_cons, zlen_nil in Hl. pose proof (zlen_nonneg l). lia.
  - rewrite !zlen_cons in *. f_equal.
    + pose proof (zlen_nonneg l) as Hp. specialize (H 0 ltac:(lia)). cbn in H. congruence.
    + apply IH; [lia|]. intros k Hk. specialize (H (k + 1) ltac:(lia)).
      unfold rdl in *. destruct (Z.ltb_spec (k + 1) 0); [lia|].
      destruct (Z.ltb_spec k 0); [lia|].
      replace (Z.to_nat (k + 1)) with (S (Z.to_nat k)) in H by lia. exact H.
Qed.

Lemma wrl_spec {A} (l : list A) i v : 0 <= i < zlen l ->
  exists l', wrl l i v = Some l' /\ zlen l' = zlen l /\
    rdl l' i = Some v /\ (forall k, k <> i -> rdl l' k = rdl l k).
Proof.
  intros H. unfold wrl. destruct (Z.leb_spec 0 i); [|lia]. destruct (Z.ltb_spec i (zlen l)); [|lia].
  cbn [andb]. eexists. split; [reflexivity|].
  assert (Lf : zlen (firstn (Z.to_nat i) l) = i).
  { unfold zlen in *. rewrite firstn_length. lia. }
  split; [|split].
  - rewrite zlen_app, zlen_cons, Lf. unfold zlen in *. rewrite skipn_length. lia.
  - rewrite rdl_app_r by lia. rewrite Lf, Z.sub_diag. reflexivity.
  - intros k Hk. destruct (Z_lt_ge_dec k i) as [Hki|Hki].
    + rewrite rdl_app_l by lia. unfold rdl. destruct (Z.ltb_spec k 0); [reflexivity|].
      rewrite <- (firstn_skipn (Z.to_nat i) l) at 2. rewrite nth_error_app1; [reflexivity|].
      unfold zlen in *. lia.
    + rewrite rdl_app_r by lia. rewrite Lf. unfold rdl.
      destruct (Z.ltb_spec (k - i) 0); [lia|]. destruct (Z.ltb_spec k 0); [lia|].
      replace (Z.to_nat (k - i)) with (S (Z.to_nat (k - i - 1))) by lia. cbn [nth_error].
      rewrite <- (firstn_skipn (Z.to_nat i + 1) l) at 2.
      rewrite nth_error_app2; rewrite firstn_length; unfold zlen in *; [f_equal|]; lia.
Qed.

(** ** Tabulation *)
Definition tab {A} (n : Z) (f : Z -> A) : list A :=
  map (fun k => f (Z.of_nat k)) (seq 0 (Z.to_nat n)).

Lemma zlen_tab {A} n (f : Z -> A) : 0 <= n -> zlen (tab n f) = n.
Proof. intros H. unfold zlen, tab. rewrite map_length, seq_length. lia. Qed.

Lemma rdl_tab {A} n (f : Z -> A) k : 0 <= k < n -> rdl (tab n f) k = Some (f k).
Proof.
  intros H. unfold rdl, tab. destruct (Z.ltb_spec k 0); [lia|].
  rewrite nth_error_map.
  replace (nth_error (seq 0 (Z.to_nat n)) (Z.to_nat k)) with (Some (Z.to_nat k)).
  - cbn. f_equal. f_equal. lia.
  - symmetry. rewrite (nth_error_nth' _ O) by (rewrite seq_length; lia).
    f_equal. rewrite seq_nth by lia. reflexivity.
Qed.

Lemma tab_ext {A} n (f g : Z -> A) : (forall k, 0 <= k < n -> f k = g k) -> tab n f = tab n g.
Proof.
  intros H. unfold tab. apply map_ext_in. intros k Hk. apply in_seq in Hk. apply H. lia.
Qed.

Lemma tab_0 {A} n (f : Z -> A) : n <= 0 -> tab n f = [].
Proof. intros H. unfold tab. replace (Z.to_nat n) with O by lia. reflexivity. Qed.

Lemma tab_succ {A} n (f : Z -> A) : 0 <= n -> tab (n + 1) f = tab n f ++ [f n].
Proof.
  intros H. unfold tab. replace (Z.to_nat (n + 1)) with (S (Z.to_nat n)) by lia.
  rewrite seq_S, map_app. cbn. rewrite Z2Nat.id by lia. reflexivity.
Qed.

(** An array is the tabulation of its elements. *)
Definition nthZ {A} (d : A) (l : list A) (i : Z) : A :=
  match rdl l i with Some v => v | None => d end.

Lemma rdl_nthZ {A} d (l : list A) i : 0 <= i < zlen l -> rdl l i = Some (nthZ d l i).
Proof. intros H. unfold nthZ. destruct (rdl_some l i H) as [v ->]. reflexivity. Qed.

Lemma tab_nthZ {A} d (l : list A) : l = tab (zlen l) (nthZ d l).
Proof.
  apply list_ext.
  - rewrite zlen_tab by apply zlen_nonneg. reflexivity.
  - intros k Hk. rewrite rdl_tab by lia. apply rdl_nthZ. lia.
Qed.

Lemma nthZ_tab {A} d n (f : Z -> A) k : 0 <= k < n -> nthZ d (tab n f) k = f k.
Proof. intros H. unfold nthZ. rewrite rdl_tab by lia. reflexivity. Qed.

(** ** Memory: the arrays of the context structure, addressed by name.
    [Out k] = ctx->output_k, [Cst k] = ctx->cst_k, [Temp] = ctx->tensor_temp
    (templates/template_header_file.c.tpl); [NnIn]/[NnOut] are the arguments
    nn_input / prediction of the generated [inference] function. *)
Inductive bname := Out (k : nat) | Cst (k : nat) | Temp | NnIn | NnOut.

Definition bname_eq_dec (a b : bname) : {a = b} + {a <> b}.
Proof. decide equality; apply Nat.eq_dec. Defined.

Section Mem.
  Context {V : Type}.
  Definition mem := bname -> list V.
  Definition upd (m : mem) (b : bname) (l : list V) : mem :=
    fun b' => if bname_eq_dec b' b then l else m b'.
  Definition rd (m : mem) (b : bname) (i : Z) : option V := rdl (m b) i.
  Definition wr (m : mem) (b : bname) (i : Z) (v : V) : option mem :=
    match wrl (m b) i v with Some l => Some (upd m b l) | None => None end.

  Lemma upd_same m b l : upd m b l b = l.
  Proof. unfold upd. destruct (bname_eq_dec b b); congruence. Qed.
  Lemma upd_other m b l b' : b' <> b -> upd m b l b' = m b'.
  Proof. unfold upd. destruct (bname_eq_dec b' b); congruence. Qed.

  Lemma wr_spec m b i v : 0 <= i < zlen (m b) ->
    exists m', wr m b i v = Some m' /\ zlen (m' b) = zlen (m b) /\
      rd m' b i = Some v /\ (forall k, k <> i -> rd m' b k = rd m b k) /\
      (forall b', b' <> b -> m' b' = m b').
  Proof.
    intros H. destruct (wrl_spec (m b) i v H) as (l' & E & L & R1 & R2).
    unfold wr. rewrite E. eexists. split; [reflexivity|].
    unfold rd. rewrite upd_same. repeat split; auto. intros. apply upd_other. assumption.
  Qed.

  (** [holds m b l]: the array [b] starts with the elements of [l]. *)
  Definition holds (m : mem) (b : bname) (l : list V) : Prop :=
    exists r, m b = l ++ r.

  Lemma holds_rd m b l k : holds m b l -> 0 <= k < zlen l -> rd m b k = rdl l k.
  Proof. intros [r E] H. unfold rd. rewrite E. apply rdl_app_l. lia. Qed.

  Lemma holds_rd_nthZ d m b l k : holds m b l -> 0 <= k < zlen l -> rd m b k = Some (nthZ d l k).
  Proof. intros H Hk. rewrite (holds_rd m b l k H Hk). apply rdl_nthZ. lia. Qed.

  Lemma holds_zlen m b l : holds m b l -> zlen l <= zlen (m b).
  Proof. intros [r E]. rewrite E, zlen_app. pose proof (zlen_nonneg r). lia. Qed.

  Lemma holds_intro m b l : zlen l <= zlen (m b) ->
    (forall k, 0 <= k < zlen l -> rd m b k = rdl l k) -> holds m b l.
  Proof.
    intros HL H. exists (skipn (length l) (m b)).
    rewrite <- (firstn_skipn (length l) (m b)) at 1. f_equal.
    apply list_ext.
    - unfold zlen in *. rewrite firstn_length. lia.
    - intros k Hk. assert (Hl : 0 <= k < zlen l) by (unfold zlen in *; rewrite firstn_length in Hk; lia).
      rewrite <- H by exact Hl. unfold rd.
      rewrite <- (firstn_skipn (length l) (m b)) at 2. rewrite rdl_app_l by lia. reflexivity.
  Qed.

  Lemma holds_eq m m' b l : m' b = m b -> holds m b l -> holds m' b l.
  Proof. intros E [r H]. exists r. congruence. Qed.

  (** [only m m' b]: [m'] differs from [m] at most in array [b], whose length is kept. *)
  Definition only (m m' : mem) (b : bname) : Prop :=
    zlen (m' b) = zlen (m b) /\ forall b', b' <> b -> m' b' = m b'.

  Lemma only_refl m b : only m m b.
  Proof. split; auto. Qed.

  Lemma only_zlen m m' b b' : only m m' b -> zlen (m' b') = zlen (m b').
  Proof.
    intros [L E]. destruct (bname_eq_dec b' b) as [->|N]; [exact L|]. rewrite E by exact N. reflexivity.
  Qed.

  (** ** The basic loop of every template: fill [b[0..n-1]] in order.
      The value stored at [k] may read anything in the memory in which the
      first [k] cells have already been overwritten. *)
  Lemma fill_spec n (body : Z -> mem -> option mem) (val : Z -> V) b m :
    0 <= n -> n <= zlen (m b) ->
    (forall k m', 0 <= k < n -> only m m' b -> 
        (forall i, 0 <= i < k -> rd m' b i = Some (val i)) ->
        (forall i, k <= i -> rd m' b i = rd m b i) ->
        body k m' = wr m' b k (val k)) ->
    exists m', for_ n body m = Some m' /\ only m m' b /\
      (forall i, 0 <= i < n -> rd m' b i = Some (val i)) /\
      (forall i, n <= i -> rd m' b i = rd m b i).
  Proof.
    intros Hn HL HB.
    destruct (for_inv (fun k m' => only m m' b /\
        (forall i, 0 <= i < k -> rd m' b i = Some (val i)) /\
        (forall i, k <= i -> rd m' b i = rd m b i)) n body m) as (m' & E & P).
    - exact Hn.
    - split; [apply only_refl|]. split; intros; [lia|reflexivity].
    - intros k m1 Hk ((L & O) & P1 & P2).
      rewrite HB; [|lia|split; assumption|exact P1|exact P2].
      destruct (wr_spec m1 b k (val k)) as (m2 & E2 & L2 & R2 & R3 & O2); [lia|].
      exists m2. split; [exact E2|]. split; [split; [lia|]|split].
      + intros b' Hb'. rewrite O2 by exact Hb'. auto.
      + intros i Hi. destruct (Z.eq_dec i k) as [->|Hik]; [exact R2|].
        rewrite R3 by lia. apply P1. lia.
      + intros i Hi. rewrite R3 by lia. apply P2. lia.
    - exists m'. tauto.
  Qed.

  Lemma fill_holds n (body : Z -> mem -> option mem) (val : Z -> V) b m :
    0 <= n -> n <= zlen (m b) ->
    (forall k m', 0 <= k < n -> only m m' b -> 
        (forall i, 0 <= i < k -> rd m' b i = Some (val i)) ->
        (forall i, k <= i -> rd m' b i = rd m b i) ->
        body k m' = wr m' b k (val k)) ->
    exists m', for_ n body m = Some m' /\ only m m' b /\ holds m' b (tab n val).
  Proof.
    intros Hn HL HB. destruct (fill_spec n body val b m Hn HL HB) as (m' & E & O & P1 & P2).
    exists m'. split; [exact E|]. split; [exact O|].
    apply holds_intro.
    - rewrite zlen_tab by lia. destruct O as [O _]. lia.
    - intros k Hk. rewrite zlen_tab in Hk by lia. rewrite rdl_tab by lia. apply P1. lia.
  Qed.

  (** ** Contract of a layer's generated code.
      [srcs]: arrays holding the layer's inputs together with the input
      tensors; [out]: the layer's own array; [tneed], [oneed]: how many cells
      of tensor_temp and of the output array the code uses.  The contract says:
      no out-of-bounds access, the output array starts with [result], array
      lengths are kept, and nothing but tensor_temp and the output array is
      modified.  An input array may be the output array itself. *)
  Definition layer_ok (code : mem -> option mem) (srcs : list (bname * list V))
      (out : bname) (tneed oneed : Z) (result : list V) : Prop :=
    forall m,
      Forall (fun s => holds m (fst s) (snd s)) srcs ->
      tneed <= zlen (m Temp) -> oneed <= zlen (m out) ->
      exists m', code m = Some m' /\ holds m' out result /\
        (forall b, zlen (m' b) = zlen (m b)) /\
        (forall b, b <> Temp -> b <> out -> m' b = m b).

  (** [for (k = 0; k < size; ++k) out[k] = act(tensor_temp[k]);] *)
  Definition copy_from_temp (size : Z) (act : V -> V) (out : bname) (m : mem) : option mem :=
    for_ size (fun k m => v <- rd m Temp k ;; wr m out k (act v)) m.

  Lemma copy_from_temp_spec size act out m l :
    out <> Temp -> 0 <= size -> holds m Temp l -> zlen l = size -> size <= zlen (m out) ->
    exists m', copy_from_temp size act out m = Some m' /\ only m m' out /\ holds m' out (map act l).
  Proof.
    intros Hne Hs Hl Hz Ho. unfold copy_from_temp.
    destruct l as [|d l0] eqn:El.
    { rewrite zlen_nil in Hz. rewrite for_0 by lia. exists m. split; [reflexivity|].
      split; [apply only_refl|]. exists (m out). reflexivity. }
    rewrite <- El in *.
    destruct (fill_holds size
      (fun k m => v <- rd m Temp k ;; wr m out k (act v)) (fun k => act (nthZ d l k)) out m)
      as (m' & E & O & H); [lia|lia| |].
    - intros k m1 Hk [_ O] _ _. rewrite (holds_rd_nthZ d m1 Temp l k); [reflexivity| |lia].
      eapply holds_eq; [|exact Hl]. apply O. congruence.
    - exists m'. split; [exact E|]. split; [exact O|].
      replace (map act l) with (tab size (fun k => act (nthZ d l k))); [exact H|].
      apply list_ext.
      + rewrite zlen_tab by lia. unfold zlen in *. rewrite map_length. lia.
      + intros k Hk. rewrite zlen_tab in Hk by lia. rewrite rdl_tab by lia.
        unfold rdl. destruct (Z.ltb_spec k 0); [lia|]. rewrite nth_error_map.
        unfold nthZ, rdl. destruct (Z.ltb_spec k 0); [lia|].
        destruct (nth_error l (Z.to_nat k)) eqn:En; [reflexivity|].
        apply nth_error_None in En. unfold zlen in *. lia.
  Qed.
End Mem.
Arguments mem : clear implicits.
