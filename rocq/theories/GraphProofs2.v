From Coq Require Import List Arith Bool Lia Permutation.
Import ListNotations.
From Verif Require Import Graph GraphSpec GraphProofs.

(** ** depth_first_sort *)
Lemma dfs_sort_spec g : linked g -> acyclic g ->
  exists srt, depth_first_sort g = Some srt /\ Permutation (dnn g) srt /\
    fwd (next_layer g) srt.
Proof.
  intros L (rank & HR).
  assert (CL : forall l i, In l (dnn g) -> In i (next_layer g l) -> In i (dnn g)).
  { intros l i Hl Hi. eapply (links_closed g L); eauto. }
  unfold depth_first_sort.
  destruct (sort_all_total (dnn g) (next_layer g) CL (S (length (dnn g))) (dnn g) [] []) as (srt & vis & E);
    [apply incl_refl | lia |].
  rewrite E. exists srt. split; [reflexivity|].
  destruct (sort_all_correct (dnn g) (next_layer g) CL rank HR _ _ _ _ _ _ E) as (D & V & I & _).
  - apply incl_refl.
  - constructor; try (intros x []; fail); [constructor|]. intros [|? ?] ? ? H; discriminate H.
  - tauto.
  - split; [|apply D]. apply NoDup_Permutation; [apply L | apply D |].
    intros x. split; [apply I | apply D].
Qed.

Lemma fwd_prev g srt : linked g -> Permutation (dnn g) srt -> NoDup srt -> fwd (next_layer g) srt ->
  topological g srt.
Proof.
  intros L P ND F l1 s l2 E p Hp.
  assert (Hs : In s (dnn g)) by (eapply Permutation_in; [symmetry; exact P | subst; apply in_or_app; right; left; reflexivity]).
  assert (Hpn : In p (dnn g)) by (eapply (links_closed g L); eauto).
  assert (Hn : In s (next_layer g p)) by (apply (linked_In g p s L Hpn Hs); exact Hp).
  assert (Hps : In p srt) by (eapply Permutation_in; eauto).
  apply in_split in Hps. destruct Hps as (a & b & Eab).
  specialize (F a p b Eab s Hn).
  (* s in b, so p before s *)
  rewrite E in Eab.
  assert (Hin : In p l1 \/ p = s \/ In p l2).
  { assert (In p (l1 ++ s :: l2)) by (rewrite Eab; apply in_or_app; right; left; reflexivity).
    apply in_app_or in H. destruct H as [H|[H|H]]; auto. }
  destruct Hin as [H|[H|H]]; [exact H | |].
  - subst. exfalso. rewrite Eab in ND. apply NoDup_remove_2 in ND. apply ND. apply in_or_app. right. exact F.
  - exfalso. (* p in l2: then s is before p, contradiction with NoDup *)
    apply in_split in H. destruct H as (c & d & ->).
    assert (Es : (l1 ++ s :: c) ++ p :: d = a ++ p :: b) by (rewrite <- app_assoc; exact Eab).
    assert (ND2 : NoDup ((l1 ++ s :: c) ++ p :: d)) by (rewrite <- app_assoc; subst srt; exact ND).
    assert (d = b /\ l1 ++ s :: c = a) as [-> Ea].
    { clear - Es ND2. revert a Es ND2. generalize (l1 ++ s :: c) as u.
      induction u as [|x u IH]; intros [|y a] E N; cbn in *.
      - injection E as ->. auto.
      - injection E as <- ->. exfalso. inversion N as [|? ? N1 N2]; subst.
        apply N1. apply in_or_app. right. left. reflexivity.
      - injection E as -> <-. exfalso. inversion N as [|? ? N1 N2]; subst.
        apply N1. apply in_or_app. right. left. reflexivity.
      - injection E as -> E. inversion N; subst. destruct (IH a E) as [-> ->]; auto. }
    rewrite <- app_assoc in ND2. cbn in ND2. apply NoDup_remove_2 in ND2.
    apply ND2. apply in_or_app. right. apply in_or_app. right. right. exact F.
Qed.

(** ** Filtering keeps relative order *)
Lemma filter_split {A} (f : A -> bool) l : forall a x b, filter f l = a ++ x :: b ->
  exists l1 l2, l = l1 ++ x :: l2 /\ filter f l1 = a /\ filter f l2 = b /\ f x = true.
Proof.
  induction l as [|y l IH]; intros a x b E; cbn in E.
  - destruct a; discriminate.
  - destruct (f y) eqn:Ey.
    + destruct a as [|z a]; cbn in E; injection E as -> E.
      * exists [], l. repeat split; auto.
      * destruct (IH _ _ _ E) as (l1 & l2 & -> & <- & <- & Hx).
        exists (z :: l1), l2. cbn. rewrite Ey. auto.
    + destruct (IH _ _ _ E) as (l1 & l2 & -> & <- & <- & Hx).
      exists (y :: l1), l2. cbn. rewrite Ey. auto.
Qed.

Lemma filter_partition {A} (f : A -> bool) l :
  Permutation l (filter f l ++ filter (fun x => negb (f x)) l).
Proof.
  induction l as [|x l IH]; cbn; [constructor|].
  destruct (f x); cbn.
  - constructor. exact IH.
  - apply Permutation_cons_app. exact IH.
Qed.

(** ** hoist_constants *)
Lemma hoist_perm g srt ord : hoist_constants g srt = Some ord -> Permutation srt ord.
Proof.
  unfold hoist_constants. destruct (filter (fun i => negb (is_constant g i)) srt) as [|o os] eqn:E; [discriminate|].
  intros H. injection H as <-.
  etransitivity; [apply (filter_partition (is_constant g))|]. rewrite E.
  symmetry. apply Permutation_cons_app. reflexivity.
Qed.

Lemma hoist_topological g srt ord :
  Permutation (dnn g) srt -> linked g ->
  topological g srt -> constants_are_sources g -> no_constant_expression g ->
  hoist_constants g srt = Some ord -> topological g ord.
Proof.
  intros P L T CS NC. unfold hoist_constants.
  destruct (filter (fun i => negb (is_constant g i)) srt) as [|o os] eqn:E; [discriminate|].
  intros H. injection H as <-.
  assert (IN : forall x, In x (dnn g) <-> In x srt).
  { intros x. split; apply Permutation_in; [exact P | symmetry; exact P]. }
  (* the first non-constant has no predecessor *)
  assert (Ho : previous_layer g o = []).
  { destruct (filter_split _ srt [] o os E) as (l1 & l2 & E1 & F1 & F2 & Hc).
    destruct (previous_layer g o) as [|q qs] eqn:Eq; [reflexivity|exfalso].
    destruct (NC o) as (p & Hp & Hpc).
    - apply IN. subst. apply in_or_app. right. left. reflexivity.
    - congruence.
    - specialize (T l1 o l2 E1 p Hp).
      assert (In p (filter (fun i => negb (is_constant g i)) l1)).
      { apply filter_In. split; [exact T|]. rewrite Hpc. reflexivity. }
      rewrite F1 in H. exact H. }
  intros l1 s l2 Eo p Hp.
  destruct l1 as [|x l1]; cbn in Eo; injection Eo as Eo1 Eo.
  { subst s. rewrite Ho in Hp. destruct Hp. }
  subst x.
  (* s in constants ++ os *)
  assert (Hs : In s (filter (is_constant g) srt ++ os)) by (rewrite Eo; apply in_or_app; right; left; reflexivity).
  assert (Hsn : In s (dnn g)).
  { apply IN. apply in_app_or in Hs. destruct Hs as [Hs|Hs].
    - apply filter_In in Hs. tauto.
    - assert (In s (filter (fun i => negb (is_constant g i)) srt)) by (rewrite E; right; exact Hs).
      apply filter_In in H. tauto. }
  assert (Hpn : In p (dnn g)) by (eapply (links_closed g L); eauto).
  assert (Hsc : is_constant g s = false).
  { destruct (is_constant g s) eqn:Ec; [|reflexivity].
    rewrite (CS s Hsn Ec) in Hp. destruct Hp. }
  (* position of s is in os *)
  assert (exists a, os = a ++ s :: l2 /\ o :: l1 = o :: filter (is_constant g) srt ++ a) as (a & Ea & El).
  { assert (NCc : forall x, In x (filter (is_constant g) srt) -> x <> s).
    { intros x Hx ->. apply filter_In in Hx. destruct Hx. congruence. }
    clear - Eo NCc. revert l1 Eo. induction (filter (is_constant g) srt) as [|c cs IH]; intros l1 Eo.
    - exists l1. cbn in *. auto.
    - destruct l1 as [|y l1]; cbn in Eo; injection Eo as E0 Eo.
      + exfalso. apply (NCc c); [left; reflexivity | exact E0].
      + destruct (IH) with (l1 := l1) as (a & Ha & Hb); [intros x Hx; apply NCc; right; exact Hx | exact Eo|].
        exists a. split; [exact Ha|]. injection Hb as Hb. subst. reflexivity. }
  rewrite El. destruct (is_constant g p) eqn:Epc.
  - right. apply in_or_app. left. apply filter_In. split; [apply IN; exact Hpn | exact Epc].
  - subst os. destruct (filter_split _ srt (o :: a) s l2 E) as (m1 & m2 & E1 & F1 & F2 & _).
    specialize (T m1 s m2 E1 p Hp).
    assert (Hin : In p (filter (fun i => negb (is_constant g i)) m1)).
    { apply filter_In. split; [exact T|]. rewrite Epc. reflexivity. }
    rewrite F1 in Hin. destruct Hin as [<-|Hin]; [left; reflexivity|].
    right. apply in_or_app. right. exact Hin.
Qed.

(** ** Allocation of working buffers *)
Section Alloc.
  Variable g : graph.
  Variable whole : list nat.      (* the complete execution order *)
  Hypothesis whole_nodup : NoDup whole.
  Hypothesis whole_topo : topological g whole.
  (* links, restricted to the scheduled layers *)
  Hypothesis links : forall p s, In p whole -> In s whole ->
    (In s (next_layer g p) <-> In p (previous_layer g s)).
  Hypothesis next_in : forall p s, In p whole -> In s (next_layer g p) -> In s whole.
  Hypothesis prev_nodup : forall s, In s whole -> NoDup (previous_layer g s).

  (** [pending d p]: nobody reads [p], or some reader has not run yet. *)
  Definition pending (done : list nat) (p : nat) : bool :=
    match next_layer g p with
    | [] => true
    | l => existsb (fun s => negb (memb s done)) l
    end.

  Lemma pending_true done p : pending done p = true <->
    next_layer g p = [] \/ exists s, In s (next_layer g p) /\ ~ In s done.
  Proof.
    unfold pending. destruct (next_layer g p) as [|x l] eqn:E.
    - split; auto.
    - rewrite existsb_exists. split.
      + intros (s & Hs & H). right. exists s. split; [exact Hs|]. apply memb_false. 
        destruct (memb s done); [discriminate|reflexivity].
      + intros [H|(s & Hs & H)]; [discriminate|]. exists s. split; [exact Hs|].
        apply memb_false in H. rewrite H. reflexivity.
  Qed.

  Definition val (d : list (nat * nat)) (p : nat) : nat :=
    match dget d p with Some v => v | None => 0 end.

  Record ainv (done : list nat) (st : alloc_state) : Prop := {
    ai_dom : forall x, In x (map fst (indexes st)) <-> In x done;
    ai_perm : Permutation
      (available_indexes st ++ map (val (indexes st)) (filter (pending done) done))
      (seq 0 (index_count st));
    ai_used : forall k, k < index_count st -> exists p, In p done /\ dget (indexes st) p = Some k;
    ai_lt : forall p k, dget (indexes st) p = Some k -> k < index_count st
  }.

  Lemma done_split done n rest : done ++ n :: rest = whole ->
    ~ In n done /\ In n whole /\ incl done whole /\
    (forall p, In p (previous_layer g n) -> In p done) /\
    (forall s, In s (next_layer g n) -> ~ In s (n :: done)).
  Proof.
    intros E. assert (Nn : ~ In n done).
    { rewrite <- E in whole_nodup. apply NoDup_remove_2 in whole_nodup. intros H. apply whole_nodup.
      apply in_or_app. left. exact H. }
    assert (Wn : In n whole) by (rewrite <- E; apply in_or_app; right; left; reflexivity).
    split; [exact Nn|]. split; [exact Wn|]. split; [|split].
    - intros x Hx. rewrite <- E. apply in_or_app. left. exact Hx.
    - intros p Hp. eapply whole_topo; [symmetry; exact E | exact Hp].
    - intros s Hs Hin.
      assert (Ws : In s whole) by (eapply next_in; eauto).
      assert (Hp : In n (previous_layer g s)) by (apply links; auto).
      destruct Hin as [<-|Hin].
      + apply Nn. eapply whole_topo; [symmetry; exact E | exact Hp].
      + apply in_split in Hin. destruct Hin as (a & b & ->).
        apply Nn. apply in_or_app. left.
        eapply (whole_topo a s (b ++ n :: rest)); [|exact Hp].
        rewrite <- E. rewrite <- app_assoc. reflexivity.
  Qed.

  (** What [release] does, for a duplicate-free list of predecessors. *)
  Lemma release_spec ind n : forall prevs avail,
    (forall p, In p prevs -> In p (map fst ind)) ->
    release (next_layer g) ind n prevs avail =
      Some (rev (map (val ind) (filter (fun p =>
         forallb (fun s => dmem ind s || Nat.eqb s n) (next_layer g p)) prevs)) ++ avail).
  Proof.
    induction prevs as [|p ps IH]; intros avail H; cbn [release]; [reflexivity|].
    destruct (dget_some_dom ind p) as [v Hv]; [apply H; left; reflexivity|].
    rewrite Hv. cbn [filter].
    destruct (forallb (fun s => dmem ind s || Nat.eqb s n) (next_layer g p)) eqn:E.
    - rewrite IH by (intros q Hq; apply H; right; exact Hq). cbn [map rev].
      rewrite <- app_assoc. cbn. unfold val at 3. rewrite Hv. reflexivity.
    - apply IH. intros q Hq. apply H. right. exact Hq.
  Qed.

  Lemma val_cons_other ind n i p : p <> n -> val ((n, i) :: ind) p = val ind p.
  Proof. intros H. unfold val. cbn. destruct (Nat.eqb_spec p n); [congruence|reflexivity]. Qed.

  Lemma filter_perm_split {A} (f h : A -> bool) l :
    (forall x, In x l -> h x = true -> f x = true) ->
    Permutation (filter f l) (filter h l ++ filter (fun x => f x && negb (h x)) l).
  Proof.
    intros H. induction l as [|x l IH]; cbn [filter]; [constructor|].
    assert (IH' : Permutation (filter f l) (filter h l ++ filter (fun x => f x && negb (h x)) l))
      by (apply IH; intros; apply H; [right|]; assumption).
    destruct (h x) eqn:Eh.
    - rewrite (H x) by (auto; left; reflexivity). cbn. constructor. exact IH'.
    - destruct (f x); cbn; [|exact IH'].
      apply Permutation_cons_app. exact IH'.
  Qed.

  Lemma alloc_step_spec done n rest st : done ++ n :: rest = whole -> ainv done st ->
    exists st' freed, 
      alloc_step g st n = Some st' /\ ainv (done ++ [n]) st' /\
      (forall p, In p freed <-> In p done /\ pending done p = true /\ pending (done ++ [n]) p = false) /\
      (index_count st' = index_count st \/
       (index_count st' = S (index_count st) /\
        Permutation (map (val (indexes st)) (filter (pending (done ++ [n])) done)) (seq 0 (index_count st)))) /\
      (forall p, In p done -> dget (indexes st') p = dget (indexes st) p).
  Proof.
    intros E I. destruct (done_split done n rest E) as (Nn & Wn & Wd & Pn & Sn).
    assert (ND : NoDup done).
    { rewrite <- E in whole_nodup. clear - whole_nodup. induction done as [|x d IH]; [constructor|].
      cbn in whole_nodup. inversion whole_nodup as [|? ? H1 H2]; subst. constructor; [|auto].
      intros H. apply H1. apply in_or_app. left. exact H. }
    set (h := fun p => forallb (fun s => dmem (indexes st) s || Nat.eqb s n) (next_layer g p)).
    (* freed predecessors *)
    assert (Hfree : forall p, In p done ->
      (In p (previous_layer g n) /\ h p = true <-> pending done p = true /\ pending (done ++ [n]) p = false)).
    { intros p Hp. unfold h. rewrite forallb_forall. 
      assert (PF : pending (done ++ [n]) p = false <->
         next_layer g p <> [] /\ forall s, In s (next_layer g p) -> In s (done ++ [n])).
      { destruct (pending (done ++ [n]) p) eqn:Ep.
        - split; [discriminate|]. intros [H1 H2]. apply pending_true in Ep.
          destruct Ep as [Ep|(s & Hs & Hn)]; [tauto|]. exfalso. apply Hn. apply H2. exact Hs.
        - split; [intros _|reflexivity]. split.
          + intros H. assert (pending (done ++ [n]) p = true) by (apply pending_true; auto). congruence.
          + intros s Hs. destruct (in_dec Nat.eq_dec s (done ++ [n])) as [H|H]; [exact H|].
            assert (pending (done ++ [n]) p = true) by (apply pending_true; right; eauto). congruence. }
      rewrite PF, pending_true. split.
      - intros [H1 H2]. assert (Hn : In n (next_layer g p)) by (apply links; auto).
        split; [right; exists n; auto|]. split; [intros H; rewrite H in Hn; destruct Hn|].
        intros s Hs. specialize (H2 s Hs). apply orb_true_iff in H2. apply in_or_app.
        destruct H2 as [H2|H2].
        + left. apply (ai_dom done st I). apply dmem_dom. exact H2.
        + right. apply Nat.eqb_eq in H2. subst. left. reflexivity.
      - intros [H1 [H2 H3]]. destruct H1 as [H1|(s & Hs & Hns)]; [tauto|].
        assert (s = n).
        { specialize (H3 s Hs). apply in_app_or in H3. destruct H3 as [H3|[H3|[]]]; [tauto|congruence]. }
        subst s. split; [apply links; auto|].
        intros s Hs'. apply orb_true_iff. specialize (H3 s Hs'). apply in_app_or in H3.
        destruct H3 as [H3|[H3|[]]].
        + left. apply dmem_dom. apply (ai_dom done st I). exact H3.
        + right. subst. apply Nat.eqb_refl. }
    assert (Hmono : forall p, In p done -> pending (done ++ [n]) p = true -> pending done p = true).
    { intros p Hp H. apply pending_true in H. apply pending_true. destruct H as [H|(s & Hs & H)]; [auto|].
      right. exists s. split; [exact Hs|]. intros H'. apply H. apply in_or_app. auto. }
    set (freed := filter h (previous_layer g n)).
    assert (Hfr : forall p, In p freed <-> In p done /\ pending done p = true /\ pending (done ++ [n]) p = false).
    { intros p. unfold freed. rewrite filter_In. split.
      - intros [H1 H2]. assert (Hp := Pn p H1). split; [exact Hp|]. apply Hfree; auto.
      - intros [H1 H2]. apply Hfree in H2; auto. }
    assert (Pfree : Permutation freed (filter (fun p => pending done p && negb (pending (done ++ [n]) p)) done)).
    { apply NoDup_Permutation.
      - apply NoDup_filter. apply prev_nodup. exact Wn.
      - apply NoDup_filter. exact ND.
      - intros p. rewrite Hfr, filter_In, andb_true_iff, negb_true_iff. tauto. }
    unfold alloc_step.
    assert (Dn : dmem (indexes st) n = false).
    { destruct (dmem (indexes st) n) eqn:Ed; [|reflexivity]. apply dmem_dom in Ed.
      apply (ai_dom done st I) in Ed. tauto. }
    rewrite Dn.
    rewrite release_spec.
    2:{ intros p Hp. apply (ai_dom done st I). apply Pn. exact Hp. }
    fold h. fold freed.
    set (av := rev (map (val (indexes st)) freed) ++ available_indexes st).
    assert (Pav : Permutation (av ++ map (val (indexes st)) (filter (pending (done ++ [n])) done))
                    (seq 0 (index_count st))).
    { rewrite <- (ai_perm done st I).
      rewrite (filter_perm_split (pending done) (pending (done ++ [n])) done Hmono).
      rewrite map_app. unfold av. rewrite <- Permutation_rev. rewrite Pfree.
      rewrite <- app_assoc.
      rewrite (Permutation_app_comm (map (val (indexes st)) (filter (fun x => pending done x && negb (pending (done ++ [n]) x)) done))).
      rewrite <- !app_assoc. apply Permutation_app_head. reflexivity. }
    (* the filter over done ++ [n] *)
    assert (Pn' : pending (done ++ [n]) n = true).
    { apply pending_true. destruct (next_layer g n) as [|s l] eqn:En; [left; reflexivity|right].
      exists s. split; [left; reflexivity|]. intros H.
      apply (Sn s); [rewrite ?En; left; reflexivity|]. apply in_app_or in H. cbn. cbn in H. tauto. }
    assert (Fn : filter (pending (done ++ [n])) (done ++ [n]) = filter (pending (done ++ [n])) done ++ [n]).
    { rewrite filter_app. cbn [filter]. rewrite Pn'. reflexivity. }
    assert (VM : forall i, map (val ((n, i) :: indexes st)) (filter (pending (done ++ [n])) done)
               = map (val (indexes st)) (filter (pending (done ++ [n])) done)).
    { intros i. apply map_ext_in. intros p Hp. apply filter_In in Hp. apply val_cons_other.
      intros ->. tauto. }
    assert (Vn : forall i, val ((n, i) :: indexes st) n = i).
    { intros i. unfold val. cbn. rewrite Nat.eqb_refl. reflexivity. }
    assert (Dom : forall i x, In x (map fst ((n, i) :: indexes st)) <-> In x (done ++ [n])).
    { intros i x. cbn [map fst In]. rewrite in_app_iff. cbn. rewrite (ai_dom done st I). tauto. }
    destruct av as [|i av'] eqn:Eav.
    - eexists. exists freed. split; [reflexivity|]. split; [|split; [exact Hfr|split]].
      + constructor; cbn [indexes available_indexes index_count].
        * apply Dom.
        * rewrite Fn, map_app, VM. cbn [map app]. rewrite Vn.
          cbn [app] in Pav. rewrite seq_S. rewrite Pav. reflexivity.
        * intros k Hk. destruct (Nat.eq_dec k (index_count st)) as [->|Hne].
          -- exists n. split; [apply in_or_app; right; left; reflexivity|].
             cbn. rewrite Nat.eqb_refl. reflexivity.
          -- destruct (ai_used done st I k) as (p & Hp & Hd); [lia|].
             exists p. split; [apply in_or_app; left; exact Hp|].
             cbn. destruct (Nat.eqb_spec p n); [subst; tauto|exact Hd].
        * intros p k. cbn [dget]. destruct (Nat.eqb_spec p n); [intros H; injection H; lia|].
          intros H. apply (ai_lt done st I) in H. lia.
      + cbn [index_count]. right. split; [reflexivity|]. exact Pav.
      + cbn [indexes]. intros p Hp. cbn. destruct (Nat.eqb_spec p n); [subst; tauto|reflexivity].
    - eexists. exists freed. split; [reflexivity|]. split; [|split; [exact Hfr|split]].
      + constructor; cbn [indexes available_indexes index_count].
        * apply Dom.
        * rewrite Fn, map_app, VM. cbn [map]. rewrite Vn. rewrite <- Pav. cbn [app].
          rewrite app_assoc. rewrite <- Permutation_cons_append. reflexivity.
        * intros k Hk.
          destruct (ai_used done st I k) as (p & Hp & Hd); [lia|].
          exists p. split; [apply in_or_app; left; exact Hp|].
          cbn. destruct (Nat.eqb_spec p n); [subst; tauto|exact Hd].
        * intros p k. cbn [dget]. destruct (Nat.eqb_spec p n).
          -- intros H. injection H as <-.
             assert (In i (seq 0 (index_count st))).
             { eapply Permutation_in; [exact Pav|]. cbn. left. reflexivity. }
             apply in_seq in H. lia.
          -- intros H. apply (ai_lt done st I) in H. lia.
      + cbn [index_count]. left. reflexivity.
      + cbn [indexes]. intros p Hp. cbn. destruct (Nat.eqb_spec p n); [subst; tauto|reflexivity].
  Qed.

  (** The pairwise fact after each step: a pending node's index is not the
      index just given. *)
  Lemma pending_distinct done st p q : ainv done st -> NoDup done ->
    In p done -> In q done -> p <> q -> pending done p = true -> pending done q = true ->
    dget (indexes st) p <> dget (indexes st) q.
  Proof.
    intros I ND Hp Hq Hpq Pp Pq Heq.
    assert (N : NoDup (map (val (indexes st)) (filter (pending done) done))).
    { assert (NoDup (available_indexes st ++ map (val (indexes st)) (filter (pending done) done))).
      { eapply Permutation_NoDup; [symmetry; apply (ai_perm done st I) | apply seq_NoDup]. }
      clear - H. induction (available_indexes st) as [|x l IH]; [exact H|].
      cbn in H. inversion H; auto. }
    assert (Hv : val (indexes st) p = val (indexes st) q) by (unfold val; rewrite Heq; reflexivity).
    assert (Ip : In p (filter (pending done) done)) by (apply filter_In; auto).
    assert (Iq : In q (filter (pending done) done)) by (apply filter_In; auto).
    clear - N Hv Ip Iq Hpq. induction (filter (pending done) done) as [|x l IH]; [destruct Ip|].
    cbn in N. inversion N as [|? ? N1 N2]; subst.
    destruct Ip as [->|Ip]; destruct Iq as [->|Iq]; try congruence.
    - apply N1. rewrite Hv. apply in_map. exact Iq.
    - apply N1. rewrite <- Hv. apply in_map. exact Ip.
    - auto.
  Qed.

  Lemma alloc_loop_spec : forall rest done st,
    done ++ rest = whole -> ainv done st ->
    exists st', alloc_loop g rest st = Some st' /\ ainv whole st' /\
      (forall p, In p done -> dget (indexes st') p = dget (indexes st) p) /\
      (forall l1 p l2 n l3, whole = l1 ++ p :: l2 ++ n :: l3 -> length done <= length (l1 ++ p :: l2) ->
         needed_after g p l3 -> dget (indexes st') p <> dget (indexes st') n) /\
      (forall (f : nat -> nat), no_clobber g whole f ->
         (exists c, NoDup c /\ incl c done /\ length c = index_count st /\ NoDup (map f c)) ->
         (exists c, NoDup c /\ incl c whole /\ length c = index_count st' /\ NoDup (map f c))).
  Proof.
    induction rest as [|n rest IH]; intros done st E I.
    - rewrite app_nil_r in E. subst done. exists st. split; [reflexivity|]. split; [exact I|].
      split; [auto|]. split; [|auto].
      intros l1 p l2 n l3 E L. rewrite E in L. rewrite !app_length in L. cbn in L.
      rewrite app_length in L. cbn in L. lia.
    - destruct (alloc_step_spec done n rest st E I) as (st1 & freed & E1 & I1 & Hfr & Hcnt & Hkeep).
      destruct (done_split done n rest E) as (Nn & Wn & Wd & Pn & Sn).
      assert (E' : (done ++ [n]) ++ rest = whole) by (rewrite <- app_assoc; exact E).
      destruct (IH (done ++ [n]) st1 E' I1) as (st2 & E2 & I2 & K2 & C2 & M2).
      assert (ND1 : NoDup (done ++ [n])).
      { rewrite <- E' in whole_nodup. clear - whole_nodup.
        induction (done ++ [n]) as [|x d IHd]; [constructor|].
        cbn in whole_nodup. inversion whole_nodup as [|? ? H1 H2]; subst. constructor; [|auto].
        intros H. apply H1. apply in_or_app. left. exact H. }
      exists st2. cbn [alloc_loop]. rewrite E1. split; [exact E2|]. split; [exact I2|].
      split; [|split].
      + intros p Hp. rewrite K2 by (apply in_or_app; left; exact Hp). apply Hkeep. exact Hp.
      + intros l1 p l2 n' l3 Ew L Hneed.
        destruct (Nat.eq_dec (length done) (length (l1 ++ p :: l2))) as [Hlen|Hlen].
        2:{ eapply C2; [exact Ew| |exact Hneed]. rewrite app_length. cbn. lia. }
        (* n' = n *)
        assert (Hd : done = l1 ++ p :: l2 /\ n :: rest = n' :: l3).
        { assert (E3 : done ++ n :: rest = (l1 ++ p :: l2) ++ n' :: l3).
          { rewrite E, Ew, <- app_assoc. reflexivity. }
          revert E3 Hlen. generalize (l1 ++ p :: l2) as u. generalize (n :: rest) as v. generalize (n' :: l3) as w.
          clear. intros w v u. revert u. induction done as [|x d IHd]; intros [|y u] E L; cbn in *; try lia.
          - auto.
          - injection E as -> E. destruct (IHd u E) as [-> ->]; [lia|]. auto. }
        destruct Hd as [Hd Hn]. injection Hn as <- <-.
        assert (Hp : In p done) by (rewrite Hd; apply in_or_app; right; left; reflexivity).
        rewrite (K2 p) by (apply in_or_app; left; exact Hp).
        rewrite (K2 n) by (apply in_or_app; right; left; reflexivity).
        apply (pending_distinct (done ++ [n]) st1); auto.
        * apply in_or_app; left; exact Hp.
        * apply in_or_app; right; left; reflexivity.
        * intros ->. tauto.
        * apply pending_true. destruct Hneed as [H|(s & Hs & Hsp)]; [left; exact H|right].
          exists s. assert (Ws : In s whole) by (rewrite <- E; apply in_or_app; right; right; exact Hs).
          split; [apply links; auto|]. intros Hin.
          rewrite <- E' in whole_nodup. clear - whole_nodup Hs Hin.
          induction (done ++ [n]) as [|x d IHd]; [destruct Hin|].
          cbn in whole_nodup. inversion whole_nodup as [|? ? H1 H2]; subst.
          destruct Hin as [->|Hin]; [|auto]. apply H1. apply in_or_app. right. exact Hs.
        * apply pending_true. destruct (next_layer g n) as [|s l] eqn:En; [left; reflexivity|right].
          exists s. split; [left; reflexivity|]. intros H.
          apply (Sn s); [rewrite ?En; left; reflexivity|]. apply in_app_or in H. cbn. cbn in H. tauto.
      + intros f Hf (c & Nc & Ic & Lc & Fc). apply (M2 f Hf).
        destruct Hcnt as [Hc|[Hc Pc]].
        * exists c. split; [exact Nc|]. split; [|split; [lia|exact Fc]].
          intros x Hx. apply in_or_app. left. apply Ic. exact Hx.
        * (* new clique: pending nodes + n *)
          set (L := filter (pending (done ++ [n])) done).
          assert (NL : NoDup L).
          { apply NoDup_filter. clear - ND1. induction done as [|x d IHd]; [constructor|].
            cbn in ND1. inversion ND1 as [|? ? H1 H2]; subst. constructor; [|auto].
            intros H. apply H1. apply in_or_app. left. exact H. }
          assert (Hdiff : forall p q, In p (L ++ [n]) -> In q (L ++ [n]) -> p <> q -> f p <> f q).
          { (* whichever is first is needed after the second *)
            assert (Hord : forall p q a b c0, In p L -> In q (L ++ [n]) -> whole = a ++ p :: b ++ q :: c0 -> f p <> f q).
            { intros p q a b c0 Hp Hq Ew. apply (Hf a p b q c0 Ew).
              apply filter_In in Hp. destruct Hp as [Hpd Hpp]. apply pending_true in Hpp.
              destruct Hpp as [H|(s & Hs & Hns)]; [left; exact H|right].
              assert (Ws : In s whole) by (eapply next_in; [apply Wd; exact Hpd|exact Hs]).
              exists s. split; [|apply links; auto].
              (* s is not in done ++ [n] so it is in rest; q in done ++ [n]; hence s after q *)
              assert (Hsr : In s rest).
              { rewrite <- E' in Ws. apply in_app_or in Ws. tauto. }
              assert (Hqd : In q (done ++ [n])).
              { apply in_app_or in Hq. apply in_or_app. destruct Hq as [Hq|Hq]; [left|right; exact Hq].
                apply filter_In in Hq. tauto. }
              apply in_split in Hqd. destruct Hqd as (u & v & Euv).
              assert (E3 : u ++ q :: (v ++ rest) = (a ++ p :: b) ++ q :: c0).
              { transitivity whole; [|rewrite Ew, <- app_assoc; reflexivity].
                rewrite <- E'. rewrite Euv. rewrite <- app_assoc. reflexivity. }
              assert (c0 = v ++ rest).
              { assert (NW : NoDup (u ++ q :: (v ++ rest))).
                { replace (u ++ q :: v ++ rest) with whole; [exact whole_nodup|].
                  rewrite <- E'. rewrite Euv. rewrite <- app_assoc. reflexivity. }
                clear - E3 NW. revert E3. generalize (a ++ p :: b) as w. revert NW.
                generalize (v ++ rest) as z. intros z.
                induction u as [|x u IHu]; intros N w E3; destruct w as [|y w]; cbn in *.
                - injection E3 as ->. reflexivity.
                - injection E3 as <- ->. inversion N as [|? ? H1 H2]; subst. exfalso. apply H1.
                  apply in_or_app. right. left. reflexivity.
                - injection E3 as -> <-. inversion N as [|? ? H1 H2]; subst. exfalso. apply H1.
                  apply in_or_app. right. left. reflexivity.
                - injection E3 as -> E3. inversion N; subst. eapply IHu; eauto. }
              subst c0. apply in_or_app. right. exact Hsr. }
            intros p q Hp Hq Hpq.
            assert (Hpw : In p whole).
            { apply in_app_or in Hp. destruct Hp as [Hp|[<-|[]]]; [|exact Wn].
              apply Wd. apply filter_In in Hp. tauto. }
            assert (Hqw : In q whole).
            { apply in_app_or in Hq. destruct Hq as [Hq|[<-|[]]]; [|exact Wn].
              apply Wd. apply filter_In in Hq. tauto. }
            apply in_split in Hpw. destruct Hpw as (a & b & Eab).
            assert (Hqab : In q a \/ In q b).
            { rewrite Eab in Hqw. apply in_app_or in Hqw. destruct Hqw as [H|[H|H]]; auto. congruence. }
            destruct Hqab as [Hqa|Hqb].
            - (* q before p *)
              apply in_split in Hqa. destruct Hqa as (a1 & a2 & ->).
              assert (Ew : whole = a1 ++ q :: a2 ++ p :: b) by (rewrite Eab, <- app_assoc; reflexivity).
              apply not_eq_sym. destruct (in_dec Nat.eq_dec q L) as [HqL|HqL].
              + eapply Hord; [exact HqL|exact Hp|exact Ew].
              + (* q = n, then p must be after n but p in done *)
                apply in_app_or in Hq. destruct Hq as [Hq|[<-|[]]]; [tauto|].
                apply in_app_or in Hp. destruct Hp as [Hp|[Hp|[]]]; [|congruence].
                apply filter_In in Hp. destruct Hp as [Hpd _]. exfalso.
                apply in_split in Hpd. destruct Hpd as (u & v & Euv).
                assert (NW : NoDup (a1 ++ n :: a2 ++ p :: b)) by (rewrite <- Ew; exact whole_nodup).
                assert (E3 : u ++ p :: (v ++ n :: rest) = (a1 ++ n :: a2) ++ p :: b).
                { transitivity whole; [rewrite <- E, Euv, <- app_assoc; reflexivity|].
                  rewrite Ew, <- app_assoc. reflexivity. }
                assert (NW2 : NoDup (u ++ p :: (v ++ n :: rest))).
                { rewrite E3. rewrite <- app_assoc. exact NW. }
                assert (u = a1 ++ n :: a2).
                { clear - E3 NW2. revert E3. generalize (a1 ++ n :: a2) as w. revert NW2.
                  generalize (v ++ n :: rest) as z. intros z.
                  induction u as [|x u IHu]; intros N w E3; destruct w as [|y w]; cbn in *.
                  - reflexivity.
                  - injection E3 as <- ->. inversion N as [|? ? H1 H2]; subst. exfalso. apply H1.
                    apply in_or_app. right. left. reflexivity.
                  - injection E3 as -> <-. inversion N as [|? ? H1 H2]; subst. exfalso. apply H1.
                    apply in_or_app. right. left. reflexivity.
                  - injection E3 as -> E3. inversion N; subst. f_equal. eapply IHu; eauto. }
                apply Nn. rewrite Euv, H. rewrite <- app_assoc. apply in_or_app. right. left. reflexivity.
            - apply in_split in Hqb. destruct Hqb as (b1 & b2 & ->).
              destruct (in_dec Nat.eq_dec p L) as [HpL|HpL].
              + eapply Hord; [exact HpL|exact Hq|exact Eab].
              + apply in_app_or in Hp. destruct Hp as [Hp|[<-|[]]]; [tauto|].
                apply in_app_or in Hq. destruct Hq as [Hq|[Hq|[]]]; [|congruence].
                apply filter_In in Hq. destruct Hq as [Hqd _]. exfalso.
                apply in_split in Hqd. destruct Hqd as (u & v & Euv).
                assert (E3 : u ++ q :: (v ++ n :: rest) = (a ++ n :: b1) ++ q :: b2).
                { transitivity whole; [rewrite <- E, Euv, <- app_assoc; reflexivity|].
                  rewrite Eab, <- app_assoc. reflexivity. }
                assert (NW2 : NoDup (u ++ q :: (v ++ n :: rest))).
                { rewrite E3. rewrite <- app_assoc. cbn. rewrite <- Eab. exact whole_nodup. }
                assert (u = a ++ n :: b1).
                { clear - E3 NW2. revert E3. generalize (a ++ n :: b1) as w. revert NW2.
                  generalize (v ++ n :: rest) as z. intros z.
                  induction u as [|x u IHu]; intros N w E3; destruct w as [|y w]; cbn in *.
                  - reflexivity.
                  - injection E3 as <- ->. inversion N as [|? ? H1 H2]; subst. exfalso. apply H1.
                    apply in_or_app. right. left. reflexivity.
                  - injection E3 as -> <-. inversion N as [|? ? H1 H2]; subst. exfalso. apply H1.
                    apply in_or_app. right. left. reflexivity.
                  - injection E3 as -> E3. inversion N; subst. f_equal. eapply IHu; eauto. }
                apply Nn. rewrite Euv, H. rewrite <- app_assoc. apply in_or_app. right. left. reflexivity. }
          assert (NLn : NoDup (L ++ [n])).
          { assert (Permutation (n :: L) (L ++ [n])) by apply Permutation_cons_append.
            eapply Permutation_NoDup; [exact H|]. constructor; [|exact NL].
            intros H1. apply filter_In in H1. tauto. }
          exists (L ++ [n]). split; [exact NLn|]. split; [|split].
          -- intros x Hx. apply in_app_or in Hx. apply in_or_app. destruct Hx as [Hx|Hx]; [left|right; exact Hx].
             apply filter_In in Hx. tauto.
          -- rewrite app_length. cbn. rewrite Hc.
             assert (length L = index_count st).
             { apply Permutation_length in Pc. rewrite map_length, seq_length in Pc. exact Pc. }
             lia.
          -- clear - NLn Hdiff. induction (L ++ [n]) as [|x l IHl]; [constructor|].
             cbn. inversion NLn as [|? ? H1 H2]; subst. constructor.
             ++ intros H. apply in_map_iff in H. destruct H as (y & Hy & Hyl).
                apply (Hdiff x y); [left; reflexivity|right; exact Hyl| |symmetry; exact Hy].
                intros ->. tauto.
             ++ apply IHl; [|exact H2]. intros p q Hp Hq. apply Hdiff; right; assumption.
  Qed.

  Lemma ainv_init : ainv [] (mkAlloc 0 [] []).
  Proof. constructor; cbn; try tauto; try lia; try constructor; intros; try discriminate; lia. Qed.

  Lemma assign_spec :
    exists st, alloc_loop g whole (mkAlloc 0 [] []) = Some st /\ ainv whole st /\
      no_clobber g whole (fun p => dget (indexes st) p) /\
      (forall f : nat -> nat, no_clobber g whole f ->
         exists c, NoDup c /\ incl c whole /\ length c = index_count st /\ NoDup (map f c)).
  Proof.
    destruct (alloc_loop_spec whole [] (mkAlloc 0 [] []) eq_refl ainv_init) as (st & E & I & _ & C & M).
    exists st. split; [exact E|]. split; [exact I|]. split.
    - intros l1 p l2 n l3 Ew. apply (C l1 p l2 n l3 Ew). cbn. lia.
    - intros f Hf. apply (M f Hf). exists []. cbn. repeat split; try constructor. intros x [].
  Qed.
End Alloc.
