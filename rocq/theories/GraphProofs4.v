From Coq Require Import List Arith Bool Lia Permutation.
Import ListNotations.
From Verif Require Import CMem Graph GraphSpec GraphProofs GraphProofs2 GraphProofs3.

(** Facts that hold whether or not a layer lists the same input twice. *)
Lemma release_total nx d n : forall prevs avail,
  (forall p, In p prevs -> dmem d p = true) ->
  exists l, release nx d n prevs avail = Some (l ++ avail) /\
    (forall i, In i l -> exists p, dget d p = Some i).
Proof.
  induction prevs as [|p ps IH]; intros avail H; cbn [release].
  - exists []. split; [reflexivity|]. intros i [].
  - specialize (H p (or_introl eq_refl)) as Hp. unfold dmem in Hp.
    destruct (dget d p) as [i|] eqn:E; [|discriminate].
    destruct (forallb (fun s => dmem d s || Nat.eqb s n) (nx p)).
    + destruct (IH (i :: avail)) as (l & E1 & E2); [intros q Hq; apply H; right; exact Hq|].
      exists (l ++ [i]). rewrite <- app_assoc. split; [exact E1|].
      intros j Hj. apply in_app_or in Hj. destruct Hj as [Hj|[<-|[]]]; [auto|eauto].
    + apply IH. intros q Hq. apply H. right. exact Hq.
Qed.

Record winv (done : list nat) (st : alloc_state) : Prop := {
  wi_dom : forall x, In x (map fst (indexes st)) <-> In x done;
  wi_lt : forall p k, dget (indexes st) p = Some k -> k < index_count st;
  wi_av : forall k, In k (available_indexes st) -> k < index_count st;
  wi_used : forall k, k < index_count st -> exists p, In p done /\ dget (indexes st) p = Some k
}.

Lemma winv_step g done n st : winv done st -> ~ In n done ->
  (forall p, In p (previous_layer g n) -> In p done) ->
  exists st', alloc_step g st n = Some st' /\ winv (done ++ [n]) st'.
Proof.
  intros I Nn Hp. unfold alloc_step.
  destruct (dmem (indexes st) n) eqn:En.
  { apply dmem_dom in En. apply (wi_dom _ _ I) in En. contradiction. }
  destruct (release_total (next_layer g) (indexes st) n (previous_layer g n) (available_indexes st)) as (l & E & Hl).
  { intros p H. apply dmem_dom. apply (wi_dom _ _ I). auto. }
  rewrite E.
  assert (Hav : forall k, In k (l ++ available_indexes st) -> k < index_count st).
  { intros k Hk. apply in_app_or in Hk. destruct Hk as [Hk|Hk].
    - destruct (Hl k Hk) as [p Hpk]. eapply (wi_lt _ _ I); eauto.
    - apply (wi_av _ _ I); exact Hk. }
  destruct (l ++ available_indexes st) as [|i av]; eexists; (split; [reflexivity|]);
    constructor; cbn [indexes index_count available_indexes].
  - intros x. cbn. rewrite (wi_dom _ _ I), in_app_iff. cbn. tauto.
  - intros p k. cbn. destruct (Nat.eqb_spec p n); intros H; [injection H; lia|].
    apply (wi_lt _ _ I) in H. lia.
  - intros k [].
  - intros k Hk. destruct (Nat.eq_dec k (index_count st)) as [->|].
    + exists n. split; [apply in_or_app; right; left; reflexivity|]. cbn. rewrite Nat.eqb_refl. reflexivity.
    + destruct (wi_used _ _ I k) as (p & Hpd & Hpk); [lia|]. exists p. split; [apply in_or_app; auto|].
      cbn. destruct (Nat.eqb_spec p n); [subst; contradiction|exact Hpk].
  - intros x. cbn. rewrite (wi_dom _ _ I), in_app_iff. cbn. tauto.
  - intros p k. cbn. destruct (Nat.eqb_spec p n); intros H.
    + injection H as <-. apply Hav. left. reflexivity.
    + apply (wi_lt _ _ I) in H. lia.
  - intros k Hk. apply Hav. right. exact Hk.
  - intros k Hk. destruct (wi_used _ _ I k Hk) as (p & Hpd & Hpk). exists p. split; [apply in_or_app; auto|].
    cbn. destruct (Nat.eqb_spec p n); [subst; contradiction|exact Hpk].
Qed.

Lemma winv_loop g whole : NoDup whole -> topological g whole -> forall rest done st,
  done ++ rest = whole -> winv done st ->
  exists st', alloc_loop g rest st = Some st' /\ winv whole st'.
Proof.
  intros ND T. induction rest as [|n rest IH]; intros done st E I; cbn [alloc_loop].
  - exists st. rewrite app_nil_r in E. subst. auto.
  - destruct (winv_step g done n st I) as (st1 & E1 & I1).
    + intros H. rewrite <- E in ND. apply NoDup_remove_2 in ND. apply ND. apply in_or_app. auto.
    + intros p Hp. eapply (T done n rest); [symmetry; exact E|exact Hp].
    + rewrite E1. apply (IH (done ++ [n])); [rewrite <- app_assoc; exact E|exact I1].
Qed.

Lemma tri_topo_total g :
  linked g -> acyclic g ->
  constants_are_sources g -> no_constant_expression g ->
  (exists l, In l (dnn g) /\ is_constant g l = false) ->
  exists s, tri_topo g = Some s /\ Permutation (dnn g) (order s) /\ topological g (order s) /\
    (forall i, In i (order s) -> exists k, dget (paths s) i = Some k /\ k < max_path s) /\
    (forall k, k < max_path s -> exists i, In i (order s) /\ dget (paths s) i = Some k).
Proof.
  intros L A CS NC (l & Hl & Hlc).
  destruct (dfs_sort_spec g L A) as (srt & E & P & F).
  assert (ND : NoDup srt) by (eapply Permutation_NoDup; [exact P | apply L]).
  assert (T : topological g srt) by (apply fwd_prev; assumption).
  unfold tri_topo. rewrite E.
  destruct (hoist_constants g srt) as [ord|] eqn:EH.
  - assert (P2 : Permutation (dnn g) ord) by (etransitivity; [exact P | apply (hoist_perm g); exact EH]).
    assert (T2 : topological g ord) by (eapply (hoist_topological g srt ord); eauto; fail).
    assert (ND2 : NoDup ord) by (eapply Permutation_NoDup; [exact P2 | apply L]).
    assert (Hl2 : In l ord) by (eapply Permutation_in; eauto).
    destruct (winv_loop g ord ND2 T2 ord [] (mkAlloc 0 [] []) eq_refl) as (st & Est & I).
    { constructor; cbn; try tauto; try discriminate; intros; lia. }
    unfold assign_liveliness_index. rewrite Est. eexists. split; [reflexivity|]. cbn [order paths max_path].
    assert (KN : NoDup (map fst (indexes st))) by (eapply alloc_keys; [exact Est | constructor]).
    assert (MX : S (list_max (map snd (indexes st))) = index_count st).
    { apply list_max_count; auto.
      - apply (wi_lt _ _ I).
      - intros k Hk. destruct (wi_used _ _ I k Hk) as (p & _ & Hp). eauto.
      - intros H. assert (In l (map fst (indexes st))) by (apply (wi_dom _ _ I); exact Hl2).
        rewrite H in H0. destruct H0. }
    rewrite MX. split; [exact P2|]. split; [exact T2|]. split; [|apply (wi_used _ _ I)].
    intros i Hi. apply (wi_dom _ _ I) in Hi. apply dget_some_dom in Hi. destruct Hi as [k Hk].
    exists k. split; [exact Hk|]. eapply (wi_lt _ _ I); exact Hk.
  - exfalso. unfold hoist_constants in EH.
    destruct (filter (fun i => negb (is_constant g i)) srt) as [|o os] eqn:EF; [|discriminate].
    assert (In l (filter (fun i => negb (is_constant g i)) srt)).
    { apply filter_In. split; [eapply Permutation_in; eauto|]. rewrite Hlc. reflexivity. }
    rewrite EF in H. exact H.
Qed.

(** What a consumer reads is still what its producer wrote. *)
Lemma readable_until_last_reader g s : good_schedule g s ->
  forall l1 p l2 n l3 c b, order s = l1 ++ p :: l2 ++ n :: l3 -> In c l3 -> In p (previous_layer g c) ->
  output_str s p = Some b ->
  (forall k, dget (paths s) n = Some k -> b <> Out k) /\
  (forall k, dget (csts s) n = Some k -> b <> Cst k).
Proof.
  intros G l1 p l2 n l3 c b E Hc Hp Hb. unfold output_str in Hb.
  destruct (dget (csts s) p) as [k|] eqn:Ep.
  - injection Hb as <-. split; [discriminate|]. intros k' Hk' H. injection H as ->.
    exact (gs_cst g s G l1 p l2 n l3 k' E Ep (ex_intro _ c (conj Hc Hp)) Hk').
  - destruct (dget (paths s) p) as [k|] eqn:Epp; [|discriminate]. injection Hb as <-.
    split; [|discriminate]. intros k' Hk' H. injection H as ->.
    apply (gs_noclobber g s G l1 p l2 n l3 E); [right; exists c; auto|]. congruence.
Qed.

(** ** Concrete networks *)
Definition of_edges (n : nat) (cst : list nat) (edges : list (nat * nat)) : graph :=
  mkGraph (seq 0 n)
    (fun s => map fst (filter (fun e => Nat.eqb (snd e) s) edges))
    (fun p => map snd (filter (fun e => Nat.eqb (fst e) p) edges))
    (fun i => memb i cst).

Lemma of_edges_linked n cst edges :
  forallb (fun e => Nat.ltb (fst e) n && Nat.ltb (snd e) n) edges = true -> linked (of_edges n cst edges).
Proof.
  intros H. rewrite forallb_forall in H. constructor; cbn.
  - apply seq_NoDup.
  - intros p s _ _. clear H. induction edges as [|[a b] es IH]; [reflexivity|]. cbn [filter fst snd].
    destruct (Nat.eqb_spec a p), (Nat.eqb_spec b s); cbn [map fst snd]; subst.
    + rewrite !count_occ_cons_eq by reflexivity. rewrite IH. reflexivity.
    + rewrite count_occ_cons_neq by congruence. exact IH.
    + rewrite count_occ_cons_neq by congruence. exact IH.
    + exact IH.
  - intros l i _ [Hi|Hi]; apply in_map_iff in Hi; destruct Hi as ([a b] & <- & Hin);
      apply filter_In in Hin; destruct Hin as [Hin _]; specialize (H _ Hin);
      apply andb_true_iff in H; destruct H as [H1 H2]; apply Nat.ltb_lt in H1, H2; apply in_seq; cbn in *; lia.
Qed.

Lemma of_edges_acyclic n cst edges (rank : nat -> nat) :
  forallb (fun e => Nat.ltb (rank (fst e)) (rank (snd e))) edges = true -> acyclic (of_edges n cst edges).
Proof.
  intros H. rewrite forallb_forall in H. exists rank. cbn. intros p s _ Hs.
  apply in_map_iff in Hs. destruct Hs as ([a b] & <- & Hin). apply filter_In in Hin. destruct Hin as [Hin Ha].
  apply Nat.eqb_eq in Ha. cbn in *. subst. specialize (H _ Hin). apply Nat.ltb_lt in H. exact H.
Qed.

Lemma of_edges_constants n cst edges :
  forallb (fun e => negb (memb (snd e) cst)) edges = true -> constants_are_sources (of_edges n cst edges).
Proof.
  intros H. rewrite forallb_forall in H. intros c _ Hc. cbn in *.
  destruct (filter (fun e => Nat.eqb (snd e) c) edges) as [|e es] eqn:E; [reflexivity|exfalso].
  assert (Hin : In e (filter (fun e => Nat.eqb (snd e) c) edges)) by (rewrite E; left; reflexivity).
  apply filter_In in Hin. destruct Hin as [Hin He]. apply Nat.eqb_eq in He. specialize (H _ Hin).
  rewrite He, Hc in H. discriminate.
Qed.

Definition single_inputb (n : nat) (cst : list nat) (edges : list (nat * nat)) : bool :=
  Nat.ltb 0 n && negb (memb 0 cst) && forallb (fun e => negb (Nat.eqb (snd e) 0)) edges &&
  forallb (fun s => Nat.eqb s 0 || memb s cst ||
     existsb (fun e => Nat.eqb (snd e) s && negb (memb (fst e) cst)) edges) (seq 0 n).

Lemma of_edges_single_input n cst edges :
  single_inputb n cst edges = true -> single_input (of_edges n cst edges) 0.
Proof.
  unfold single_inputb. rewrite !andb_true_iff, !forallb_forall, negb_true_iff, Nat.ltb_lt.
  intros [[[H1 H2] H3] H4]. split; [|split; [|split]].
  - cbn. destruct n; [lia|reflexivity].
  - exact H2.
  - cbn. destruct (filter (fun e => Nat.eqb (snd e) 0) edges) as [|e es] eqn:E; [reflexivity|exfalso].
    assert (Hin : In e (filter (fun e => Nat.eqb (snd e) 0) edges)) by (rewrite E; left; reflexivity).
    apply filter_In in Hin. destruct Hin as [Hin He]. specialize (H3 _ Hin). rewrite He in H3. discriminate.
  - intros s Hs Hne Hc. cbn in *. specialize (H4 s Hs). rewrite Hc in H4.
    destruct (Nat.eqb_spec s 0); [contradiction|]. cbn in H4. apply existsb_exists in H4.
    destruct H4 as ([a b] & Hin & Hab). apply andb_true_iff in Hab. destruct Hab as [Hb Ha].
    exists a. cbn in *. split; [|apply negb_true_iff; exact Ha].
    apply in_map_iff. exists (a, b). split; [reflexivity|]. apply filter_In. auto.
Qed.

Lemma of_edges_no_repeat n cst edges : NoDup edges -> no_repeated_input (of_edges n cst edges).
Proof.
  intros ND s _. cbn. induction ND as [|[a b] es Hn ND IH]; [constructor|]. cbn.
  destruct (Nat.eqb_spec b s); [|exact IH]. cbn. constructor; [|exact IH].
  intros H. apply in_map_iff in H. destruct H as ([a' b'] & Ha & Hin). cbn in Ha. subst a'.
  apply filter_In in Hin. destruct Hin as [Hin Hb]. apply Nat.eqb_eq in Hb. cbn in Hb. subst. contradiction.
Qed.

(** Inception-like network with a constant operand (layer 6). *)
Definition ex_net := of_edges 7 [6] [(0,1);(0,2);(1,3);(2,4);(0,4);(3,5);(4,5);(6,5)].

(** in -> a, in -> q, in -> q2; add = a + a; s reads add, q, q2. *)
Definition ex_repeat := of_edges 6 [] [(0,3);(0,2);(0,1);(1,4);(1,4);(4,5);(2,5);(3,5)].

(** Layer 1 reads only the constant 2 (both listed before use). *)
Definition ex_cstexpr := of_edges 4 [2] [(0,3);(2,1);(1,3)].

(** 2 = 1 + 1; 2 is read by 3 and 4; 3 is read by 5 and 6. *)
Definition ex_repeat_cst := of_edges 8 [] [(0,1);(1,2);(1,2);(2,4);(2,3);(3,5);(3,6);(4,7);(5,7);(6,7)].

Lemma repeated_input_clobbers : exists g s,
  linked g /\ acyclic g /\ constants_are_sources g /\ single_input g 0 /\
  tri_topo g = Some s /\ ~ no_clobber g (order s) (dget (paths s)).
Proof.
  exists ex_repeat. eexists. split; [|split; [|split; [|split; [|split]]]].
  - apply of_edges_linked. reflexivity.
  - apply (of_edges_acyclic _ _ _ (fun i => nth i [0;1;1;1;2;3] 0)). reflexivity.
  - apply of_edges_constants. reflexivity.
  - apply of_edges_single_input. reflexivity.
  - vm_compute. reflexivity.
  - intros H. apply (H [0;1] 4 [] 2 [3;5] eq_refl); [|reflexivity].
    right. exists 5. split; cbn; tauto.
Qed.

Lemma repeated_input_clobbers_saved : exists g s,
  linked g /\ acyclic g /\ constants_are_sources g /\ single_input g 0 /\
  tri_topo g = Some s /\ ~ no_clobber_saved g (order s) (dget (csts s)).
Proof.
  exists ex_repeat_cst. eexists. split; [|split; [|split; [|split; [|split]]]].
  - apply of_edges_linked. reflexivity.
  - apply (of_edges_acyclic _ _ _ (fun i => i)). reflexivity.
  - apply of_edges_constants. reflexivity.
  - apply of_edges_single_input. reflexivity.
  - vm_compute. reflexivity.
  - intros H. apply (H [0;1] 2 [] 3 [6;5;4;7] 0 eq_refl eq_refl); [|reflexivity].
    exists 4. split; cbn; tauto.
Qed.

Lemma constant_expression_fails : exists g,
  linked g /\ acyclic g /\ constants_are_sources g /\ no_repeated_input g /\
  is_constant g 0 = false /\ hd_error (dnn g) = Some 0 /\ tri_topo g = None.
Proof.
  exists ex_cstexpr. split; [|split; [|split; [|split; [|split; [|split]]]]]; try reflexivity.
  - apply of_edges_linked. reflexivity.
  - apply (of_edges_acyclic _ _ _ (fun i => nth i [0;1;0;2] 0)). reflexivity.
  - apply of_edges_constants. reflexivity.
  - apply of_edges_no_repeat. repeat constructor; cbn; intuition congruence.
Qed.

(** ** Statements for any successful import *)
Lemma tri_topo_some_nonconst g s : linked g -> acyclic g -> tri_topo g = Some s ->
  exists l, In l (dnn g) /\ is_constant g l = false.
Proof.
  intros L A E. destruct (dfs_sort_spec g L A) as (srt & E1 & P & F).
  unfold tri_topo in E. rewrite E1 in E. unfold hoist_constants in E.
  destruct (filter (fun i => negb (is_constant g i)) srt) as [|o os] eqn:EF; [discriminate|].
  exists o. assert (H : In o (filter (fun i => negb (is_constant g i)) srt)) by (rewrite EF; left; reflexivity).
  apply filter_In in H. destruct H as [H1 H2]. apply negb_true_iff in H2. split; [|exact H2].
  eapply Permutation_in; [symmetry; exact P|exact H1].
Qed.

Lemma tri_topo_is_good g s :
  linked g -> acyclic g -> no_repeated_input g -> constants_are_sources g -> no_constant_expression g ->
  tri_topo g = Some s -> good_schedule g s.
Proof.
  intros L A NR CS NC E. destruct (tri_topo_good g L A NR CS NC) as (s' & E' & G).
  - eapply tri_topo_some_nonconst; eauto.
  - congruence.
Qed.

Lemma tri_topo_no_clobber g s :
  linked g -> acyclic g -> no_repeated_input g -> constants_are_sources g -> no_constant_expression g ->
  tri_topo g = Some s -> no_clobber g (order s) (dget (paths s)).
Proof. intros L A NR CS NC E. apply (gs_noclobber g s). apply tri_topo_is_good; assumption. Qed.

Lemma tri_topo_minimal g s :
  linked g -> acyclic g -> no_repeated_input g -> constants_are_sources g -> no_constant_expression g ->
  tri_topo g = Some s ->
  forall f : nat -> nat, no_clobber g (order s) f ->
    max_path s <= length (nodup Nat.eq_dec (map f (order s))).
Proof.
  intros L A NR CS NC E f Hf. pose proof (tri_topo_is_good g s L A NR CS NC E) as G.
  destruct (gs_minimal g s G f Hf) as (c & Nc & Ic & Lc & Nf).
  rewrite <- Lc. rewrite <- (map_length f c). apply NoDup_incl_length; [exact Nf|].
  intros x Hx. apply nodup_In. apply in_map_iff in Hx. destruct Hx as (i & <- & Hi).
  apply in_map. apply Ic. exact Hi.
Qed.

Lemma tri_topo_declared g s :
  linked g -> acyclic g -> constants_are_sources g -> no_constant_expression g ->
  tri_topo g = Some s ->
  (forall i, In i (order s) -> exists k, dget (paths s) i = Some k /\ k < max_path s) /\
  (forall k, k < max_path s -> exists i, In i (order s) /\ dget (paths s) i = Some k).
Proof.
  intros L A CS NC E. destruct (tri_topo_total g L A CS NC) as (s' & E' & _ & _ & H).
  - eapply tri_topo_some_nonconst; eauto.
  - assert (s' = s) by congruence. subst. exact H.
Qed.

Lemma tri_topo_readable g s :
  linked g -> acyclic g -> no_repeated_input g -> constants_are_sources g -> no_constant_expression g ->
  tri_topo g = Some s ->
  (forall p, In p (order s) ->
     ((exists k, output_str s p = Some (Cst k)) <-> 1 < length (next_layer g p)) /\
     exists b, output_str s p = Some b) /\
  (forall l1 p l2 n l3 c b,
     order s = l1 ++ p :: l2 ++ n :: l3 -> In c l3 -> In p (previous_layer g c) ->
     output_str s p = Some b ->
     (forall k, dget (paths s) n = Some k -> b <> Out k) /\
     (forall k, dget (csts s) n = Some k -> b <> Cst k)).
Proof.
  intros L A NR CS NC E. pose proof (tri_topo_is_good g s L A NR CS NC E) as G. split.
  - intros p Hp. pose proof (gs_cst_dom g s G p Hp) as D. pose proof (proj1 (gs_paths_dom g s G p) Hp) as [kp Hkp].
    unfold output_str. destruct (dget (csts s) p) as [k|] eqn:Ec.
    + split; [|eauto]. rewrite <- D. split; eauto.
    + rewrite Hkp. split; [|eauto]. rewrite <- D. split; intros [k Hk]; discriminate.
  - exact (readable_until_last_reader g s G).
Qed.

Lemma tri_topo_input_first' g inp :
  linked g -> acyclic g -> no_repeated_input g -> constants_are_sources g -> single_input g inp ->
  exists s tail, tri_topo g = Some s /\
    order s = inp :: filter (is_constant g) (order s) ++ tail /\
    Forall (fun i => is_constant g i = false) tail.
Proof.
  intros L A NR CS SI. destruct (tri_topo_input_first g inp L A NR CS SI) as (s & t & E & _ & H).
  exists s, t. split; assumption.
Qed.
