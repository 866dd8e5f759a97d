From Coq Require Import List Arith Bool Lia Permutation.
Import ListNotations.
From Verif Require Import Graph GraphSpec GraphProofs GraphProofs2.

(** ** Allocation of saved copies (assign_cst) *)
Section Cst.
  Variable g : graph.
  Variable whole : list nat.
  Hypothesis whole_nodup : NoDup whole.
  Hypothesis whole_topo : topological g whole.
  Hypothesis links : forall p s, In p whole -> In s whole ->
    (In s (next_layer g p) <-> In p (previous_layer g s)).
  Hypothesis next_in : forall p s, In p whole -> In s (next_layer g p) -> In s whole.
  Hypothesis prev_nodup : forall s, In s whole -> NoDup (previous_layer g s).

  Definition multi (p : nat) : bool := Nat.ltb 1 (length (next_layer g p)).
  Definition held (done : list nat) (p : nat) : bool :=
    multi p && existsb (fun s => negb (memb s done)) (next_layer g p).

  Lemma held_true done p : held done p = true <->
    multi p = true /\ exists s, In s (next_layer g p) /\ ~ In s done.
  Proof.
    unfold held. rewrite andb_true_iff, existsb_exists. split; intros [H1 (s & Hs & H2)]; (split; [exact H1|]); exists s; (split; [exact Hs|]).
    - apply memb_false. destruct (memb s done); [discriminate|reflexivity].
    - apply memb_false in H2. rewrite H2. reflexivity.
  Qed.

  Record cinv (done : list nat) (st : cst_state) : Prop := {
    ci_vis : forall x, In x (cst_visited st) <-> In x done;
    ci_dom : forall x, In x (map fst (dict_cst st)) <-> In x done /\ multi x = true;
    ci_perm : Permutation
      (cst_avail st ++ map (val (dict_cst st)) (filter (held done) done))
      (seq 0 (cst_count st));
    ci_lt : forall p k, dget (dict_cst st) p = Some k -> k < cst_count st
  }.

  Lemma release_cst_spec d vis : forall prevs avail,
    release_cst (next_layer g) d vis prevs avail =
      rev (map (val d) (filter (fun p => dmem d p && forallb (fun s => memb s vis) (next_layer g p)) prevs)) ++ avail.
  Proof.
    induction prevs as [|p ps IH]; intros avail; cbn [release_cst filter]; [reflexivity|].
    unfold dmem at 1. destruct (dget d p) as [k|] eqn:Ed; cbn [andb].
    - destruct (forallb (fun s => memb s vis) (next_layer g p)).
      + rewrite IH. cbn [map rev]. rewrite <- app_assoc. cbn. unfold val at 3. rewrite Ed. reflexivity.
      + apply IH.
    - apply IH.
  Qed.

  Lemma cst_step_spec done n rest st : done ++ n :: rest = whole -> cinv done st ->
    cinv (done ++ [n]) (cst_step g st n) /\
    (forall p, In p done -> dget (dict_cst (cst_step g st n)) p = dget (dict_cst st) p).
  Proof.
    intros E I.
    destruct (done_split g whole whole_nodup whole_topo links next_in done n rest E) as (Nn & Wn & Wd & Pn & Sn).
    assert (ND : NoDup done).
    { rewrite <- E in whole_nodup. clear - whole_nodup. induction done as [|x d IH]; [constructor|].
      cbn in whole_nodup. inversion whole_nodup as [|? ? H1 H2]; subst. constructor; [|auto].
      intros H. apply H1. apply in_or_app. left. exact H. }
    set (vis := n :: cst_visited st).
    assert (Hvis : forall x, In x vis <-> In x (done ++ [n])).
    { intros x. unfold vis. cbn. rewrite in_app_iff. cbn. rewrite (ci_vis done st I). tauto. }
    set (h := fun p => dmem (dict_cst st) p && forallb (fun s => memb s vis) (next_layer g p)).
    set (freed := filter h (previous_layer g n)).
    assert (Hfr : forall p, In p freed <-> In p done /\ held done p = true /\ held (done ++ [n]) p = false).
    { intros p. unfold freed. rewrite filter_In. unfold h. rewrite andb_true_iff, dmem_dom, forallb_forall.
      rewrite (ci_dom done st I).
      assert (HF : held (done ++ [n]) p = false <->
          multi p = false \/ forall s, In s (next_layer g p) -> In s (done ++ [n])).
      { destruct (held (done ++ [n]) p) eqn:Eh.
        - apply held_true in Eh. destruct Eh as (M & s & Hs & Hns). split; [discriminate|].
          intros [H|H]; [congruence|]. exfalso. auto.
        - split; [intros _|reflexivity]. destruct (multi p) eqn:Em; [right|left; reflexivity].
          intros s Hs. destruct (in_dec Nat.eq_dec s (done ++ [n])) as [H|H]; [exact H|].
          assert (held (done ++ [n]) p = true) by (apply held_true; eauto). congruence. }
      rewrite HF, held_true. split.
      - intros [H1 [[H2 H3] H4]]. split; [exact H2|].
        split; [split; [exact H3|]|].
        + exists n. split; [apply links; auto|exact Nn].
        + right. intros s Hs. apply Hvis. apply memb_In. auto.
      - intros (H1 & (H2 & s & Hs & Hns) & H3). destruct H3 as [H3|H3]; [congruence|].
        assert (s = n).
        { specialize (H3 s Hs). apply in_app_or in H3. destruct H3 as [H3|[H3|[]]]; [tauto|congruence]. }
        subst s. split; [apply links; auto|]. split; [auto|].
        intros s Hs'. apply memb_In. apply Hvis. auto. }
    assert (Hmono : forall p, In p done -> held (done ++ [n]) p = true -> held done p = true).
    { intros p Hp H. apply held_true in H. apply held_true. destruct H as (M & s & Hs & H). split; [exact M|].
      exists s. split; [exact Hs|]. intros H'. apply H. apply in_or_app. auto. }
    assert (Pfree : Permutation freed (filter (fun p => held done p && negb (held (done ++ [n]) p)) done)).
    { apply NoDup_Permutation.
      - apply NoDup_filter. apply prev_nodup. exact Wn.
      - apply NoDup_filter. exact ND.
      - intros p. rewrite Hfr, filter_In, andb_true_iff, negb_true_iff. tauto. }
    unfold cst_step. fold vis. rewrite release_cst_spec. fold h. fold freed.
    set (av := rev (map (val (dict_cst st)) freed) ++ cst_avail st).
    assert (Pav : Permutation (av ++ map (val (dict_cst st)) (filter (held (done ++ [n])) done))
                    (seq 0 (cst_count st))).
    { rewrite <- (ci_perm done st I).
      rewrite (filter_perm_split (held done) (held (done ++ [n])) done Hmono).
      rewrite map_app. unfold av. rewrite <- Permutation_rev. rewrite Pfree.
      rewrite <- app_assoc.
      rewrite (Permutation_app_comm (map (val (dict_cst st)) (filter (fun x => held done x && negb (held (done ++ [n]) x)) done))).
      rewrite <- !app_assoc. apply Permutation_app_head. reflexivity. }
    fold (multi n).
    assert (VM : forall i, map (val ((n, i) :: dict_cst st)) (filter (held (done ++ [n])) done)
               = map (val (dict_cst st)) (filter (held (done ++ [n])) done)).
    { intros i. apply map_ext_in. intros p Hp. apply filter_In in Hp. apply val_cons_other.
      intros ->. tauto. }
    assert (Vn : forall i, val ((n, i) :: dict_cst st) n = i).
    { intros i. unfold val. cbn. rewrite Nat.eqb_refl. reflexivity. }
    destruct (multi n) eqn:Mn.
    - assert (Hn' : held (done ++ [n]) n = true).
      { apply held_true. split; [exact Mn|]. unfold multi in Mn. apply Nat.ltb_lt in Mn.
        destruct (next_layer g n) as [|s l] eqn:En; [cbn in Mn; lia|].
        exists s. split; [left; reflexivity|]. intros H.
        apply (Sn s); [rewrite ?En; left; reflexivity|]. apply in_app_or in H. cbn. cbn in H. tauto. }
      assert (Fn : filter (held (done ++ [n])) (done ++ [n]) = filter (held (done ++ [n])) done ++ [n]).
      { rewrite filter_app. cbn [filter]. rewrite Hn'. reflexivity. }
      assert (Dom : forall i x, In x (map fst ((n, i) :: dict_cst st)) <-> In x (done ++ [n]) /\ multi x = true).
      { intros i x. cbn [map fst In]. rewrite in_app_iff. cbn. rewrite (ci_dom done st I).
        split; [intros [<-|[H1 H2]]; auto|]. intros [[H|[H|[]]] H2]; auto. }
      destruct av as [|i av'] eqn:Eav; (split; [constructor; cbn [cst_visited dict_cst cst_avail cst_count]|]).
      + apply Hvis.
      + apply Dom.
      + rewrite Fn, map_app, VM. cbn [map app]. rewrite Vn.
        cbn [app] in Pav. rewrite seq_S. rewrite Pav. reflexivity.
      + intros p k. cbn [dget]. destruct (Nat.eqb_spec p n); [intros H; injection H; lia|].
        intros H. apply (ci_lt done st I) in H. lia.
      + intros p Hp. cbn. destruct (Nat.eqb_spec p n); [subst; tauto|reflexivity].
      + apply Hvis.
      + apply Dom.
      + rewrite Fn, map_app, VM. cbn [map]. rewrite Vn. rewrite <- Pav. cbn [app].
        rewrite app_assoc. rewrite <- Permutation_cons_append. reflexivity.
      + intros p k. cbn [dget]. destruct (Nat.eqb_spec p n).
        * intros H. injection H as <-.
          assert (In i (seq 0 (cst_count st))) by (eapply Permutation_in; [exact Pav|]; cbn; left; reflexivity).
          apply in_seq in H. lia.
        * intros H. apply (ci_lt done st I) in H. lia.
      + intros p Hp. cbn. destruct (Nat.eqb_spec p n); [subst; tauto|reflexivity].
    - assert (Hn' : held (done ++ [n]) n = false) by (unfold held; rewrite Mn; reflexivity).
      split; [constructor; cbn [cst_visited dict_cst cst_avail cst_count]|].
      + apply Hvis.
      + intros x. rewrite (ci_dom done st I). rewrite in_app_iff. cbn.
        split; [tauto|]. intros [[H|[H|[]]] H2]; [auto|]. subst x. change (multi n = true) in H2. congruence.
      + rewrite filter_app. cbn [filter]. rewrite Hn'. rewrite app_nil_r. exact Pav.
      + intros p k H. apply (ci_lt done st I) in H. exact H.
      + reflexivity.
  Qed.

  Lemma held_distinct done st p q k : cinv done st -> NoDup done ->
    In p done -> In q done -> p <> q -> held done p = true -> held done q = true ->
    dget (dict_cst st) p = Some k -> dget (dict_cst st) q <> Some k.
  Proof.
    intros I ND Hp Hq Hpq Pp Pq Hk Heq.
    assert (N : NoDup (map (val (dict_cst st)) (filter (held done) done))).
    { assert (NoDup (cst_avail st ++ map (val (dict_cst st)) (filter (held done) done))).
      { eapply Permutation_NoDup; [symmetry; apply (ci_perm done st I) | apply seq_NoDup]. }
      clear - H. induction (cst_avail st) as [|x l IH]; [exact H|].
      cbn in H. inversion H; auto. }
    assert (Hv : val (dict_cst st) p = val (dict_cst st) q) by (unfold val; rewrite Hk, Heq; reflexivity).
    assert (Ip : In p (filter (held done) done)) by (apply filter_In; auto).
    assert (Iq : In q (filter (held done) done)) by (apply filter_In; auto).
    clear - N Hv Ip Iq Hpq. induction (filter (held done) done) as [|x l IH]; [destruct Ip|].
    cbn in N. inversion N as [|? ? N1 N2]; subst.
    destruct Ip as [->|Ip]; destruct Iq as [->|Iq]; try congruence.
    - apply N1. rewrite Hv. apply in_map. exact Iq.
    - apply N1. rewrite <- Hv. apply in_map. exact Ip.
    - auto.
  Qed.

  Lemma cst_loop_spec : forall rest done st,
    done ++ rest = whole -> cinv done st ->
    let st' := fold_left (cst_step g) rest st in
      cinv whole st' /\
      (forall p, In p done -> dget (dict_cst st') p = dget (dict_cst st) p) /\
      (forall l1 p l2 n l3 k, whole = l1 ++ p :: l2 ++ n :: l3 -> length done <= length (l1 ++ p :: l2) ->
         dget (dict_cst st') p = Some k ->
         (exists s, In s l3 /\ In p (previous_layer g s)) -> dget (dict_cst st') n <> Some k).
  Proof.
    induction rest as [|n rest IH]; intros done st E I; cbn [fold_left].
    - rewrite app_nil_r in E. subst done. split; [exact I|]. split; [auto|].
      intros l1 p l2 n l3 k E L. exfalso. rewrite E in L. rewrite !app_length in L. cbn in L.
      rewrite app_length in L. cbn in L. lia.
    - destruct (cst_step_spec done n rest st E I) as (I1 & Hkeep).
      destruct (done_split g whole whole_nodup whole_topo links next_in done n rest E) as (Nn & Wn & Wd & Pn & Sn).
      assert (E' : (done ++ [n]) ++ rest = whole) by (rewrite <- app_assoc; exact E).
      destruct (IH (done ++ [n]) (cst_step g st n) E' I1) as (I2 & K2 & C2).
      assert (ND1 : NoDup (done ++ [n])).
      { rewrite <- E' in whole_nodup. clear - whole_nodup.
        induction (done ++ [n]) as [|x d IHd]; [constructor|].
        cbn in whole_nodup. inversion whole_nodup as [|? ? H1 H2]; subst. constructor; [|auto].
        intros H. apply H1. apply in_or_app. left. exact H. }
      split; [exact I2|]. split.
      + intros p Hp. rewrite K2 by (apply in_or_app; left; exact Hp). apply Hkeep. exact Hp.
      + intros l1 p l2 n' l3 k Ew L Hk Hneed.
        destruct (Nat.eq_dec (length done) (length (l1 ++ p :: l2))) as [Hlen|Hlen].
        2:{ eapply C2; [exact Ew| |exact Hk|exact Hneed]. rewrite app_length. cbn. lia. }
        assert (Hd : done = l1 ++ p :: l2 /\ n :: rest = n' :: l3).
        { assert (E3 : done ++ n :: rest = (l1 ++ p :: l2) ++ n' :: l3).
          { rewrite E, Ew, <- app_assoc. reflexivity. }
          revert E3 Hlen. generalize (l1 ++ p :: l2) as u. generalize (n :: rest) as v. generalize (n' :: l3) as w.
          clear. intros w v u. revert u. induction done as [|x d IHd]; intros [|y u] E L; cbn in *; try lia.
          - auto.
          - injection E as -> E. destruct (IHd u E) as [-> ->]; [lia|]. auto. }
        destruct Hd as [Hd Hn]. injection Hn as <- <-.
        assert (Hp : In p done) by (rewrite Hd; apply in_or_app; right; left; reflexivity).
        rewrite (K2 n) by (apply in_or_app; right; left; reflexivity).
        rewrite (K2 p) in Hk by (apply in_or_app; left; exact Hp).
        assert (Mp : multi p = true).
        { assert (In p (map fst (dict_cst (cst_step g st n)))).
          { apply dget_In in Hk. apply in_map_iff. exists (p, k). auto. }
          apply (ci_dom _ _ I1) in H. tauto. }
        intros Hkn.
        assert (Mn : multi n = true).
        { assert (In n (map fst (dict_cst (cst_step g st n)))).
          { apply dget_In in Hkn. apply in_map_iff. exists (n, k). auto. }
          apply (ci_dom _ _ I1) in H. tauto. }
        revert Hkn.
        apply (held_distinct (done ++ [n]) _ p n k); auto.
        * apply in_or_app; left; exact Hp.
        * apply in_or_app; right; left; reflexivity.
        * intros ->. tauto.
        * apply held_true. split; [exact Mp|]. destruct Hneed as (s & Hs & Hsp).
          exists s. assert (Ws : In s whole) by (rewrite <- E; apply in_or_app; right; right; exact Hs).
          split; [apply links; auto|]. intros Hin.
          rewrite <- E' in whole_nodup. clear - whole_nodup Hs Hin.
          induction (done ++ [n]) as [|x d IHd]; [destruct Hin|].
          cbn in whole_nodup. inversion whole_nodup as [|? ? H1 H2]; subst.
          destruct Hin as [->|Hin]; [|auto]. apply H1. apply in_or_app. right. exact Hs.
        * apply held_true. split; [exact Mn|]. unfold multi in Mn. apply Nat.ltb_lt in Mn.
          destruct (next_layer g n) as [|s l] eqn:En; [cbn in Mn; lia|].
          exists s. split; [left; reflexivity|]. intros H.
          apply (Sn s); [rewrite ?En; left; reflexivity|]. apply in_app_or in H. cbn. cbn in H. tauto.
  Qed.

  Lemma assign_cst_spec :
    no_clobber_saved g whole (dget (assign_cst g whole)) /\
    (forall p, In p whole -> ((exists k, dget (assign_cst g whole) p = Some k) <-> 1 < length (next_layer g p))) /\
    (forall p, ~ In p whole -> dget (assign_cst g whole) p = None).
  Proof.
    assert (I0 : cinv [] (mkCst 0 [] [] [])).
    { constructor; cbn; try tauto; try lia; try constructor; intros; try discriminate; try tauto. }
    destruct (cst_loop_spec whole [] (mkCst 0 [] [] []) eq_refl I0) as (I & _ & C).
    fold (assign_cst g whole) in *. split; [|split].
    - intros l1 p l2 n l3 k Ew Hk Hn. apply (C l1 p l2 n l3 k Ew); [cbn; lia|exact Hk|exact Hn].
    - intros p Hp. assert (D := ci_dom _ _ I p). fold (assign_cst g whole) in D.
      rewrite <- Nat.ltb_lt. fold (multi p). split.
      + intros [k Hk]. apply D. apply dget_In in Hk. apply in_map_iff. exists (p, k). auto.
      + intros M. apply dget_some_dom. apply D. auto.
    - intros p Hp. apply dget_none_dom. intros H. apply (ci_dom _ _ I p) in H. tauto.
  Qed.
End Cst.

(** ** tri_topo *)
Lemma list_max_count d c :
  (forall p k, dget d p = Some k -> k < c) -> (forall k, k < c -> exists p, dget d p = Some k) ->
  NoDup (map fst d) -> d <> [] -> S (list_max (map snd d)) = c.
Proof.
  intros Hlt Hex ND Hne.
  assert (Hall : forall k, In k (map snd d) -> k < c).
  { intros k Hk. apply in_map_iff in Hk. destruct Hk as ([p k'] & <- & Hin). cbn.
    apply (Hlt p). clear - ND Hin. induction d as [|[a b] d IH]; [destruct Hin|].
    cbn in *. inversion ND as [|? ? H1 H2]; subst. destruct Hin as [H|Hin].
    - injection H as -> ->. rewrite Nat.eqb_refl. reflexivity.
    - destruct (Nat.eqb_spec p a); [subst; exfalso; apply H1; apply in_map_iff; exists (a, k'); auto|auto]. }
  assert (Hc : 0 < c).
  { destruct d as [|[a b] d]; [congruence|]. specialize (Hall b). cbn in Hall. specialize (Hall (or_introl eq_refl)). lia. }
  destruct (Hex (c - 1)) as [p Hp]; [lia|]. apply dget_In in Hp.
  assert (c - 1 <= list_max (map snd d)).
  { assert (In (c - 1) (map snd d)) by (apply in_map_iff; exists (p, c - 1); auto).
    pose proof (proj1 (list_max_le (map snd d) (list_max (map snd d))) (le_n _)) as F.
    rewrite Forall_forall in F. auto. }
  assert (list_max (map snd d) <= c - 1).
  { apply list_max_le. apply Forall_forall. intros k Hk. specialize (Hall k Hk). lia. }
  lia.
Qed.

Lemma alloc_keys g : forall order st st', alloc_loop g order st = Some st' ->
  NoDup (map fst (indexes st)) -> NoDup (map fst (indexes st')).
Proof.
  induction order as [|n order IH]; intros st st' E N; cbn in E; [injection E as <-; exact N|].
  destruct (alloc_step g st n) as [st1|] eqn:E1; [|discriminate].
  eapply IH; [exact E|]. unfold alloc_step in E1.
  destruct (dmem (indexes st) n) eqn:Ed; [discriminate|].
  assert (Nn : ~ In n (map fst (indexes st))).
  { intros H. apply dmem_dom in H. congruence. }
  destruct (release (next_layer g) (indexes st) n (previous_layer g n) (available_indexes st)) as [[|i av]|]; [| |discriminate];
    injection E1 as <-; cbn; constructor; assumption.
Qed.

(** The schedule of a network; the facts every later development uses. *)
Record good_schedule (g : graph) (s : schedule) : Prop := {
  gs_perm : Permutation (dnn g) (order s);
  gs_topo : topological g (order s);
  gs_paths_dom : forall i, In i (order s) <-> exists k, dget (paths s) i = Some k;
  gs_paths_lt : forall i k, dget (paths s) i = Some k -> k < max_path s;
  gs_paths_used : forall k, k < max_path s -> exists i, In i (order s) /\ dget (paths s) i = Some k;
  gs_noclobber : no_clobber g (order s) (dget (paths s));
  gs_minimal : forall f : nat -> nat, no_clobber g (order s) f ->
     exists c, NoDup c /\ incl c (order s) /\ length c = max_path s /\ NoDup (map f c);
  gs_cst : no_clobber_saved g (order s) (dget (csts s));
  gs_cst_dom : forall p, In p (order s) ->
     ((exists k, dget (csts s) p = Some k) <-> 1 < length (next_layer g p));
  gs_cst_none : forall p, ~ In p (order s) -> dget (csts s) p = None
}.

Lemma assign_good g ord : linked g -> Permutation (dnn g) ord -> topological g ord ->
  no_repeated_input g -> ord <> [] ->
  exists ps, assign_liveliness_index g ord = Some ps /\
    good_schedule g (mkSchedule ord ps (assign_cst g ord) (S (list_max (map snd ps)))).
Proof.
  intros L P T NR Hne.
  assert (ND : NoDup ord) by (eapply Permutation_NoDup; [exact P | apply L]).
  assert (IN : forall x, In x ord <-> In x (dnn g)).
  { intros x. split; apply Permutation_in; [symmetry; exact P | exact P]. }
  assert (LK : forall p s, In p ord -> In s ord -> (In s (next_layer g p) <-> In p (previous_layer g s))).
  { intros p s Hp Hs. apply linked_In; [exact L | apply IN; exact Hp | apply IN; exact Hs]. }
  assert (NI : forall p s, In p ord -> In s (next_layer g p) -> In s ord).
  { intros p s Hp Hs. apply IN. eapply (links_closed g L); [apply IN; exact Hp | left; exact Hs]. }
  assert (PN : forall s, In s ord -> NoDup (previous_layer g s)) by (intros s Hs; apply NR; apply IN; exact Hs).
  destruct (assign_spec g ord ND T LK NI PN) as (st & E & I & C & M).
  destruct (assign_cst_spec g ord ND T LK NI PN) as (C1 & C2 & C3).
  unfold assign_liveliness_index. rewrite E. eexists. split; [reflexivity|].
  assert (KN : NoDup (map fst (indexes st))) by (eapply alloc_keys; [exact E | constructor]).
  assert (MX : S (list_max (map snd (indexes st))) = index_count st).
  { apply list_max_count; auto.
    - apply (ai_lt g _ _ I).
    - intros k Hk. destruct (ai_used g _ _ I k Hk) as (p & _ & Hp). eauto.
    - destruct ord as [|x ord]; [congruence|]. intros H.
      assert (In x (map fst (indexes st))) by (apply (ai_dom g _ _ I); left; reflexivity).
      rewrite H in H0. destruct H0. }
  constructor; cbn [order paths csts max_path]; auto.
  - intros i. rewrite <- (ai_dom g _ _ I). split; [apply dget_some_dom|].
    intros [k Hk]. apply dget_In in Hk. apply in_map_iff. exists (i, k). auto.
  - rewrite MX. apply (ai_lt g _ _ I).
  - rewrite MX. apply (ai_used g _ _ I).
  - rewrite MX. exact M.
Qed.

Lemma tri_topo_good g :
  linked g -> acyclic g -> no_repeated_input g ->
  constants_are_sources g -> no_constant_expression g ->
  (exists l, In l (dnn g) /\ is_constant g l = false) ->
  exists s, tri_topo g = Some s /\ good_schedule g s.
Proof.
  intros L A NR CS NC (l & Hl & Hlc).
  destruct (dfs_sort_spec g L A) as (srt & E & P & F).
  assert (ND : NoDup srt) by (eapply Permutation_NoDup; [exact P | apply L]).
  assert (T : topological g srt) by (apply fwd_prev; assumption).
  unfold tri_topo. rewrite E.
  destruct (hoist_constants g srt) as [ord|] eqn:EH.
  - assert (P2 : Permutation (dnn g) ord) by (etransitivity; [exact P | apply (hoist_perm g); exact EH]).
    assert (T2 : topological g ord) by (eapply (hoist_topological g srt ord); eauto; fail).
    destruct (assign_good g ord L P2 T2 NR) as (ps & Eps & G).
    + intros ->. apply Permutation_sym, Permutation_nil in P2. rewrite P2 in Hl. destruct Hl.
    + rewrite Eps. eexists. split; [reflexivity|exact G].
  - exfalso. unfold hoist_constants in EH.
    destruct (filter (fun i => negb (is_constant g i)) srt) as [|o os] eqn:EF; [|discriminate].
    assert (In l (filter (fun i => negb (is_constant g i)) srt)).
    { apply filter_In. split; [eapply Permutation_in; eauto|]. rewrite Hlc. reflexivity. }
    rewrite EF in H. exact H.
Qed.

(** Reachability from the first listed layer. *)
Lemma single_input_first g inp : linked g -> acyclic g -> single_input g inp ->
  exists srt os, depth_first_sort g = Some srt /\
    filter (fun i => negb (is_constant g i)) srt = inp :: os.
Proof.
  intros L (rank & HR) (Hhd & Hic & Hip & Hs).
  assert (CL : forall l i, In l (dnn g) -> In i (next_layer g l) -> In i (dnn g)).
  { intros l i Hl Hi. eapply (links_closed g L); eauto. }
  destruct (dnn g) as [|x rest] eqn:Ed; [discriminate|]. injection Hhd as ->.
  unfold depth_first_sort. rewrite Ed.
  destruct (sort_all_total (inp :: rest) (next_layer g) CL (S (length (inp :: rest))) (inp :: rest) [] [])
    as (srt & vis & E); [apply incl_refl | lia |].
  rewrite E. exists srt.
  assert (D0 : dinv (inp :: rest) (next_layer g) [] []).
  { constructor; try (intros z []; fail); [constructor|]. intros [|? ?] ? ? H; discriminate H. }
  cbn [sort_all] in E. change (memb inp (snd (@nil nat, @nil nat))) with false in E. cbv iota in E.
  destruct (parcours_prof_topo (next_layer g) (S (length (inp :: rest))) ([], []) inp) as [[s1 v1]|] eqn:E1; [|discriminate].
  destruct (dfs_correct (inp :: rest) (next_layer g) CL rank HR _ _ _ _ _ _ E1 D0) as (D1 & (pre & P1) & V1).
  { left. reflexivity. } { intros []. } { intros y []. }
  rewrite app_nil_r in P1.
  destruct (sort_all_correct (inp :: rest) (next_layer g) CL rank HR _ _ _ _ _ _ E) as (D2 & V2 & I2 & (pre2 & P2)).
  { intros z Hz. right. exact Hz. } { exact D1. }
  { intros y. rewrite V1. cbn. tauto. }
  (* s1 contains every non-constant *)
  assert (RE : forall k l, rank l < k -> In l (inp :: rest) -> is_constant g l = false -> In l s1).
  { induction k as [|k IH]; intros l Hk Hl Hlc; [lia|].
    destruct (Nat.eq_dec l inp) as [->|Hne]; [subst s1; left; reflexivity|].
    destruct (Hs l Hl Hne Hlc) as (p & Hp & Hpc).
    assert (Hpn : In p (inp :: rest)) by (rewrite <- Ed; eapply (links_closed g L); [rewrite Ed; exact Hl|right; exact Hp]).
    assert (Hln : In l (next_layer g p)) by (apply (linked_In g p l L); rewrite ?Ed; assumption).
    assert (Hps : In p s1).
    { apply IH; [|exact Hpn|exact Hpc]. specialize (HR p l Hpn Hln). lia. }
    apply in_split in Hps. destruct Hps as (a & b & Eab).
    pose proof (di_fwd _ _ _ _ D1 a p b Eab l Hln) as Hb. rewrite Eab. apply in_or_app. right. right. exact Hb. }
  assert (ND2 : NoDup srt) by apply D2.
  exists (filter (fun i => negb (is_constant g i)) pre). split; [reflexivity|].
  subst srt. rewrite filter_app.
  replace (filter (fun i => negb (is_constant g i)) pre2) with (@nil nat).
  - rewrite P1. cbn [app filter]. rewrite Hic. reflexivity.
  - symmetry. destruct (filter (fun i => negb (is_constant g i)) pre2) as [|z zs] eqn:Ef; [reflexivity|exfalso].
    assert (Hz : In z (filter (fun i => negb (is_constant g i)) pre2)) by (rewrite Ef; left; reflexivity).
    apply filter_In in Hz. destruct Hz as [Hz Hzc]. apply negb_true_iff in Hzc.
    assert (Hz1 : In z s1).
    { apply (RE (S (rank z))); [lia| |exact Hzc]. apply (di_nodes _ _ _ _ D2). apply in_or_app. left. exact Hz. }
    apply in_split in Hz. destruct Hz as (u & v & ->). rewrite <- app_assoc in ND2. cbn in ND2.
    apply NoDup_remove_2 in ND2. apply ND2. apply in_or_app. right. apply in_or_app. right. exact Hz1.
Qed.

Lemma single_input_no_constant_expression g inp : single_input g inp -> constants_are_sources g ->
  no_constant_expression g.
Proof.
  intros (Hhd & Hic & Hip & Hs) CS s Hin Hne.
  destruct (Nat.eq_dec s inp) as [->|N]; [congruence|].
  destruct (is_constant g s) eqn:E; [|apply Hs; assumption].
  rewrite (CS s Hin E) in Hne. congruence.
Qed.

Lemma tri_topo_input_first g inp :
  linked g -> acyclic g -> no_repeated_input g -> constants_are_sources g -> single_input g inp ->
  exists s tail, tri_topo g = Some s /\ good_schedule g s /\
    order s = inp :: filter (is_constant g) (order s) ++ tail /\
    Forall (fun i => is_constant g i = false) tail.
Proof.
  intros L A NR CS SI.
  pose proof (single_input_no_constant_expression g inp SI CS) as NC.
  assert (Hn : exists l, In l (dnn g) /\ is_constant g l = false).
  { destruct SI as (Hhd & Hic & _). exists inp. split; [|exact Hic].
    destruct (dnn g); [discriminate|]. injection Hhd as ->. left. reflexivity. }
  destruct (tri_topo_good g L A NR CS NC Hn) as (s & E & G).
  destruct (single_input_first g inp L A SI) as (srt & os & E1 & E2).
  exists s, os. split; [exact E|]. split; [exact G|].
  unfold tri_topo in E. rewrite E1 in E. unfold hoist_constants in E. rewrite E2 in E.
  destruct (assign_liveliness_index g (inp :: filter (is_constant g) srt ++ os)) as [ps|]; [|discriminate].
  injection E as <-. cbn [order].
  assert (Hos : Forall (fun i => is_constant g i = false) os).
  { apply Forall_forall. intros i Hi.
    assert (In i (filter (fun i => negb (is_constant g i)) srt)) by (rewrite E2; right; exact Hi).
    apply filter_In in H. destruct H as [_ H]. apply negb_true_iff in H. exact H. }
  split; [|exact Hos].
  f_equal. destruct SI as (_ & Hic & _). cbn [filter]. rewrite Hic. rewrite filter_app.
  assert (F1 : filter (is_constant g) (filter (is_constant g) srt) = filter (is_constant g) srt).
  { clear. induction srt as [|x l IH]; cbn; [reflexivity|]. destruct (is_constant g x) eqn:Ex; cbn; [rewrite Ex, IH|]; auto. }
  assert (F2 : filter (is_constant g) os = []).
  { clear - Hos. induction os as [|x l IH]; cbn; [reflexivity|]. inversion Hos; subst. rewrite H1. auto. }
  rewrite F1, F2, app_nil_r. reflexivity.
Qed.
