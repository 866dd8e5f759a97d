(** * Lemmas for NNet models: the chain is scheduled as tri_topo would, the
    normalisation loops, the reading of a file. *)
From Coq Require Import ZArith List Lia Bool QArith Arith.
Import ListNotations.
From Verif Require Import CMem Tensor Num Activation Movement Graph GraphSpec Net LayerKinds Nnet.
Open Scope Z_scope.

Lemma chain_parcours num : forall k i fuel srt vis, (i + k = num)%nat -> (k < fuel)%nat ->
  (forall v, In v vis -> (v < i)%nat) ->
  parcours_prof_topo (next_layer (chain num)) fuel (srt, vis) i
    = Some (seq i (S k) ++ srt, rev (seq i (S k)) ++ vis).
Proof.
  intros k. induction k as [|k IH]; intros i fuel srt vis E F HV; (destruct fuel as [|fuel]; [lia|]).
  - cbn [parcours_prof_topo next_layer chain]. replace (Nat.ltb i num) with false by (symmetry; apply Nat.ltb_ge; lia).
    reflexivity.
  - cbn [parcours_prof_topo next_layer chain]. replace (Nat.ltb i num) with true by (symmetry; apply Nat.ltb_lt; lia).
    cbn [snd]. replace (memb (S i) (i :: vis)) with false.
    2:{ symmetry. unfold memb. apply not_true_iff_false. intros H. apply existsb_exists in H.
        destruct H as (v & Hv & E1). apply Nat.eqb_eq in E1. subst v. destruct Hv as [Hv|Hv]; [lia|]. specialize (HV _ Hv). lia. }
    change (fun i0 : nat => if (i0 <? num)%nat then [S i0] else []) with (next_layer (chain num)).
    rewrite (IH (S i) fuel srt (i :: vis)); try lia.
    2:{ intros v [<-|Hv]; [lia|]. specialize (HV _ Hv). lia. }
    f_equal. f_equal. change (seq i (S (S k))) with (i :: seq (S i) (S k)). cbn [rev].
    rewrite <- app_assoc. reflexivity.
Qed.

Lemma chain_visited nx fuel l srt vis : (forall x, In x l -> In x vis) ->
  sort_all nx fuel l (srt, vis) = Some (srt, vis).
Proof.
  induction l as [|x l IH]; intros H; [reflexivity|]. cbn [sort_all snd].
  replace (memb x vis) with true.
  - apply IH. intros y Hy. apply H. right. exact Hy.
  - symmetry. unfold memb. apply existsb_exists. exists x. split; [apply H; left; reflexivity|apply Nat.eqb_refl].
Qed.

Lemma chain_sorted num : depth_first_sort (chain num) = Some (seq 0 (S num)).
Proof.
  unfold depth_first_sort. cbn [chain dnn]. change (dnn (chain num)) with (seq 0 (S num)).
  rewrite seq_length. change (seq 0 (S num)) with (O :: seq 1 num) at 1. cbn [sort_all snd memb existsb].
  rewrite (chain_parcours num num O (S (S num)) [] []) by (try lia; intros v []).
  rewrite chain_visited; [rewrite app_nil_r; reflexivity|].
  intros x Hx. rewrite app_nil_r. apply in_rev. rewrite rev_involutive. change (In x (O :: seq 1 num)). right. exact Hx.
Qed.

Lemma chain_indexes k num : (forall i, (i < k)%nat -> dget (map (fun i => (i, O)) (rev (seq 0 k))) i = Some O) /\
  (forall i, (k <= i)%nat -> dget (map (fun i => (i, O)) (rev (seq 0 k))) i = None) /\ (k <= num -> k <= num)%nat.
Proof.
  split; [|split; [|lia]].
  - induction k as [|k IH]; intros i Hi; [lia|]. rewrite seq_S, rev_app_distr. cbn. destruct (Nat.eqb_spec i k); [reflexivity|].
    apply IH. lia.
  - induction k as [|k IH]; intros i Hi; [reflexivity|]. rewrite seq_S, rev_app_distr. cbn. destruct (Nat.eqb_spec i k); [lia|].
    apply IH. lia.
Qed.

Lemma chain_alloc num : forall k, (k <= num)%nat ->
  alloc_loop (chain num) (seq 0 (S k)) (mkAlloc 0 [] [])
    = Some (mkAlloc 1 [] (map (fun i => (i, O)) (rev (seq 0 (S k))))).
Proof.
  assert (APP : forall g l1 l2 st, alloc_loop g (l1 ++ l2) st =
    match alloc_loop g l1 st with Some st' => alloc_loop g l2 st' | None => None end).
  { intros g l1. induction l1 as [|a l1 IH]; intros l2 st; [reflexivity|]. cbn [app alloc_loop].
    destruct (alloc_step g st a); [apply IH|reflexivity]. }
  induction k as [|k IH]; intros Hk; [reflexivity|].
  rewrite seq_S, APP, IH by lia. change (0 + S k)%nat with (S k). cbn [alloc_loop]. unfold alloc_step. cbn [indexes available_indexes index_count].
  destruct (chain_indexes (S k) num) as (D1 & D2 & _).
  unfold dmem at 1. rewrite D2 by lia. cbn [previous_layer chain]. replace (Nat.leb (S k) num) with true by (symmetry; apply Nat.leb_le; lia).
  cbn [release]. rewrite D1 by lia. cbn [next_layer chain]. replace (Nat.ltb k num) with true by (symmetry; apply Nat.ltb_lt; lia).
  cbn [forallb]. rewrite Nat.eqb_refl, orb_true_r. cbn [andb].
  rewrite rev_app_distr. reflexivity.
Qed.

Lemma chain_cst num l : forall st, dict_cst st = [] ->
  dict_cst (fold_left (cst_step (chain num)) l st) = [].
Proof.
  induction l as [|n l IH]; intros st H; [exact H|]. cbn [fold_left]. apply IH. unfold cst_step.
  replace (Nat.ltb 1 (length (next_layer (chain num) n))) with false; [exact H|].
  cbn [next_layer chain]. destruct (Nat.ltb n num); reflexivity.
Qed.

(** The fixed allocation of load_nnet is the one tri_topo computes. *)
Lemma chain_tri_topo num : tri_topo (chain num) = Some (chain_schedule num).
Proof.
  unfold tri_topo. rewrite chain_sorted. unfold hoist_constants.
  replace (filter (is_constant (chain num)) (seq 0 (S num))) with (@nil nat).
  2:{ generalize (seq 0 (S num)) as l. intros l. induction l as [|a l IH]; [reflexivity|]. cbn. exact IH. }
  replace (filter (fun i => negb (is_constant (chain num) i)) (seq 0 (S num))) with (seq 0 (S num)).
  2:{ generalize (seq 0 (S num)) as l. intros l. induction l as [|a l IH]; [reflexivity|]. cbn [filter is_constant chain negb]. f_equal. exact IH. }
  change (seq 0 (S num)) with (O :: seq 1 num) at 1. cbv iota beta. cbn [app].
  change (O :: seq 1 num) with (seq 0 (S num)).
  unfold assign_liveliness_index. rewrite chain_alloc by lia. cbn [indexes].
  unfold assign_cst. rewrite chain_cst by reflexivity. unfold chain_schedule. f_equal. f_equal.
  assert (M : forall l : list nat, list_max (map snd (map (fun i => (i, O)) l)) = O).
  { intros l. induction l as [|a l IH]; [reflexivity|]. cbn. exact IH. }
  rewrite M. reflexivity.
Qed.

Lemma chain_linked num : linked (chain num).
Proof.
  constructor.
  - apply seq_NoDup.
  - intros p s Hp Hs. apply in_seq in Hp, Hs. cbn [next_layer previous_layer chain].
    destruct s as [|s].
    + destruct (Nat.ltb_spec p num); [|reflexivity]. cbn. destruct (Nat.eq_dec (S p) 0); [lia|reflexivity].
    + replace (Nat.leb (S s) num) with true by (symmetry; apply Nat.leb_le; lia).
      destruct (Nat.ltb_spec p num).
      * cbn [count_occ]. destruct (Nat.eq_dec (S p) (S s)), (Nat.eq_dec s p); try reflexivity; lia.
      * cbn [count_occ]. destruct (Nat.eq_dec s p); [lia|reflexivity].
  - intros l i Hl H. apply in_seq in Hl. apply in_seq. cbn [next_layer previous_layer chain] in H. destruct H as [H|H].
    + destruct (Nat.ltb_spec l num); [destruct H as [<-|[]]; lia|destruct H].
    + destruct l as [|l]; [destruct H|]. destruct (Nat.leb_spec (S l) num); [destruct H as [<-|[]]; lia|destruct H].
Qed.

Section Norm.
  Context (N : num).
  Notation V := (T N).
  Notation mem := (mem V).
  Notation z := (n0 N).

  Lemma nthZ_removelast (l : list V) i : 0 <= i < zlen l - 1 -> rdl (removelast l) i = Some (nthZ z l i).
  Proof.
    intros H. destruct (exists_last (l := l)) as (l' & a & E).
    { intros ->. unfold zlen in H. cbn in H. lia. }
    assert (L : zlen l = zlen l' + 1) by (rewrite E; unfold zlen; rewrite app_length; cbn [length]; lia).
    rewrite E at 1. rewrite removelast_last. rewrite <- (rdl_app_l l' [a]) by lia. rewrite <- E. apply rdl_nthZ. lia.
  Qed.

  Definition well_formed_normalizer (nz : normalizer N) : Prop :=
    0 <= input_size N nz /\ 0 <= output_size N nz /\
    zlen (mins N nz) = input_size N nz /\ zlen (maxes N nz) = input_size N nz /\
    zlen (means N nz) = input_size N nz + 1 /\ zlen (ranges N nz) = input_size N nz + 1 /\
    (forall i, 0 <= i < input_size N nz -> nlt N (nthZ z (maxes N nz) i) (nthZ z (mins N nz) i) = false).

  Lemma nth_full (m : mem) b i : 0 <= i < zlen (m b) -> rd m b i = Some (nthZ z (m b) i).
  Proof. intros H. apply rdl_nthZ. exact H. Qed.

  (** Loop that replaces every element of an array by a function of it. *)
  Lemma map_loop n b (f : Z -> V -> V) (body : Z -> mem -> option mem) (m : mem) :
    0 <= n <= zlen (m b) ->
    (forall i m', 0 <= i < n -> zlen (m' b) = zlen (m b) ->
       body i m' = wr m' b i (f i (nthZ z (m' b) i))) ->
    exists m', for_ n body m = Some m' /\ only m m' b /\
      m' b = tab (zlen (m b)) (fun i => if i <? n then f i (nthZ z (m b) i) else nthZ z (m b) i).
  Proof.
    intros Hn HB.
    destruct (for_inv (fun k m' => only m m' b /\
      m' b = tab (zlen (m b)) (fun i => if i <? k then f i (nthZ z (m b) i) else nthZ z (m b) i)) n body m) as (m' & E & O & R).
    - lia.
    - split; [apply only_refl|]. rewrite (tab_nthZ z (m b)) at 1. apply tab_ext. intros k Hk.
      destruct (Z.ltb_spec k 0); [lia|reflexivity].
    - intros i m1 Hi (O & R).
      assert (L : zlen (m1 b) = zlen (m b)) by (apply (only_zlen m m1 b b O)).
      rewrite HB by auto. destruct (wr_spec m1 b i (f i (nthZ z (m1 b) i))) as (m2 & E2 & L2 & W2 & S2 & O2); [lia|].
      exists m2. split; [exact E2|]. split.
      + split; [rewrite L2; exact L|]. intros b' Hb. rewrite O2 by exact Hb. apply O. exact Hb.
      + apply list_ext; [rewrite zlen_tab by apply zlen_nonneg; lia|]. intros k Hk.
        rewrite rdl_tab by lia. destruct (Z.eq_dec k i) as [->|Hki].
        * unfold rd in W2. rewrite W2. f_equal. destruct (Z.ltb_spec i (i + 1)); [|lia]. f_equal.
          rewrite R. rewrite nthZ_tab by lia. destruct (Z.ltb_spec i i); [lia|reflexivity].
        * unfold rd in S2. rewrite S2 by exact Hki. rewrite R. rewrite rdl_tab by lia. f_equal.
          destruct (Z.ltb_spec k i), (Z.ltb_spec k (i + 1)); try reflexivity; lia.
    - exists m'. auto.
  Qed.
End Norm.
