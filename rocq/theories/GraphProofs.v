From Coq Require Import List Arith Bool Lia Permutation.
Import ListNotations.
From Verif Require Import Graph GraphSpec.

(** ** Generic facts *)
Lemma memb_In x l : memb x l = true <-> In x l.
Proof.
  unfold memb. rewrite existsb_exists. split.
  - intros (y & Hy & E). apply Nat.eqb_eq in E. subst. exact Hy.
  - intros H. exists x. split; [exact H | apply Nat.eqb_refl].
Qed.

Lemma memb_false x l : memb x l = false <-> ~ In x l.
Proof. rewrite <- memb_In. destruct (memb x l); split; congruence. Qed.

Lemma dget_In d k v : dget d k = Some v -> In (k, v) d.
Proof.
  induction d as [|[k' v'] d IH]; cbn; [discriminate|].
  destruct (Nat.eqb_spec k k'); intros E; [left; congruence | right; auto].
Qed.

Lemma dget_some_dom d k : In k (map fst d) -> exists v, dget d k = Some v.
Proof.
  induction d as [|[k' v'] d IH]; cbn; [tauto|].
  intros H. destruct (Nat.eqb_spec k k'); [eauto|]. apply IH. destruct H; [congruence|assumption].
Qed.

Lemma dget_none_dom d k : dget d k = None <-> ~ In k (map fst d).
Proof.
  split.
  - intros E H. apply dget_some_dom in H. destruct H. congruence.
  - intros H. destruct (dget d k) eqn:E; [|reflexivity]. apply dget_In in E.
    exfalso. apply H. apply in_map_iff. exists (k, n). auto.
Qed.

Lemma dmem_dom d k : dmem d k = true <-> In k (map fst d).
Proof.
  unfold dmem. destruct (dget d k) eqn:E.
  - split; [intros _|reflexivity]. apply dget_In in E. apply in_map_iff. exists (k, n). auto.
  - apply dget_none_dom in E. split; [discriminate|tauto].
Qed.

Lemma count_occ_In_iff (l : list nat) x : In x l <-> count_occ Nat.eq_dec l x > 0.
Proof. apply count_occ_In. Qed.

Lemma linked_In g p s : linked g -> In p (dnn g) -> In s (dnn g) ->
  (In s (next_layer g p) <-> In p (previous_layer g s)).
Proof.
  intros L Hp Hs. rewrite !count_occ_In_iff. rewrite (links_symmetric g L p s Hp Hs). tauto.
Qed.

Lemma filter_length_le {A} (f g : A -> bool) l :
  (forall z, f z = true -> g z = true) -> length (filter f l) <= length (filter g l).
Proof.
  intros H. induction l as [|z l IH]; cbn [filter]; [lia|].
  destruct (f z) eqn:Ef; [rewrite (H z Ef); cbn; lia|]. destruct (g z); cbn; lia.
Qed.

(** ** Depth-first sort *)
Section DFS.
  Variable nodes : list nat.
  Variable nx : nat -> list nat.
  Hypothesis closed : forall l i, In l nodes -> In i (nx l) -> In i nodes.

  (** [fwd srt]: each element's successors all appear after it. *)
  Definition fwd (srt : list nat) : Prop :=
    forall l1 x l2, srt = l1 ++ x :: l2 -> forall s, In s (nx x) -> In s l2.

  Lemma fwd_cons x srt : fwd srt -> (forall s, In s (nx x) -> In s srt) -> fwd (x :: srt).
  Proof.
    intros H Hx [|y l1] z l2 E s Hs; cbn in E; injection E as -> E.
    - subst. auto.
    - eapply H; eauto.
  Qed.

  Definition unvisited (vis : list nat) : nat := length (filter (fun x => negb (memb x vis)) nodes).

  Lemma unvisited_mono vis vis' : incl vis vis' -> unvisited vis' <= unvisited vis.
  Proof.
    intros H. unfold unvisited. clear closed. induction nodes as [|x l IH]; cbn [filter]; [lia|].
    destruct (memb x vis) eqn:E1; destruct (memb x vis') eqn:E2; cbn [negb length]; try lia.
    apply memb_In in E1. apply memb_false in E2. exfalso. auto.
  Qed.

  Lemma unvisited_cons vis x : In x nodes -> ~ In x vis -> unvisited (x :: vis) < unvisited vis.
  Proof.
    intros Hx Hv. unfold unvisited. clear closed. induction nodes as [|y l IH]; cbn [filter]; [destruct Hx|].
    assert (M : length (filter (fun z => negb (memb z (x :: vis))) l)
              <= length (filter (fun z => negb (memb z vis)) l)).
    { apply filter_length_le. intros z. rewrite !negb_true_iff, !memb_false. cbn. tauto. }
    destruct (Nat.eq_dec y x) as [->|N].
    - replace (memb x (x :: vis)) with true by (symmetry; apply memb_In; left; reflexivity).
      apply memb_false in Hv. rewrite Hv. cbn [negb length]. lia.
    - destruct Hx as [Hx|Hx]; [congruence|]. specialize (IH Hx).
      unfold memb at 1. cbn [existsb]. destruct (Nat.eqb_spec y x); [congruence|]. cbn [orb].
      fold (memb y vis). destruct (memb y vis); cbn [negb length]; lia.
  Qed.

  (** Totality: enough fuel always suffices (even on cyclic graphs). *)
  Lemma dfs_total fuel : forall srt vis x,
    In x nodes -> ~ In x vis -> unvisited vis <= fuel ->
    exists srt' vis', parcours_prof_topo nx fuel (srt, vis) x = Some (srt', vis') /\ incl vis vis'.
  Proof.
    induction fuel as [|fuel IH]; intros srt vis x Hx Hv Hf.
    - pose proof (unvisited_cons vis x Hx Hv). lia.
    - cbn [parcours_prof_topo].
      set (go := fix go (l : list nat) (st : list nat * list nat) : option (list nat * list nat) :=
         match l with
         | [] => Some st
         | nxt :: l' =>
           if memb nxt (snd st) then go l' st
           else match parcours_prof_topo nx fuel st nxt with
                | Some st' => go l' st'
                | None => None
                end
         end).
      assert (G : forall l srt1 vis1, incl l nodes -> unvisited vis1 <= fuel ->
        exists srt2 vis2, go l (srt1, vis1) = Some (srt2, vis2) /\ incl vis1 vis2).
      { induction l as [|y l IHl]; intros srt1 vis1 Hl Hu; cbn [go].
        - exists srt1, vis1. split; [reflexivity | apply incl_refl].
        - cbn [snd]. destruct (memb y vis1) eqn:E.
          + apply IHl; [intros z Hz; apply Hl; right; exact Hz | exact Hu].
          + apply memb_false in E.
            destruct (IH srt1 vis1 y) as (s2 & v2 & E2 & I2); [apply Hl; left; reflexivity|exact E|exact Hu|].
            rewrite E2. destruct (IHl s2 v2) as (s3 & v3 & E3 & I3).
            * intros z Hz. apply Hl. right. exact Hz.
            * pose proof (unvisited_mono vis1 v2 I2). lia.
            * exists s3, v3. split; [exact E3|]. eapply incl_tran; eassumption. }
      destruct (G (nx x) srt (x :: vis)) as (s2 & v2 & E2 & I2).
      + intros y Hy. eapply closed; eauto.
      + pose proof (unvisited_cons vis x Hx Hv). lia.
      + rewrite E2. exists (x :: s2), v2. split; [reflexivity|].
        intros z Hz. apply I2. right. exact Hz.
  Qed.

  (** Correctness on acyclic graphs. *)
  Variable rank : nat -> nat.
  Hypothesis rank_inc : forall p s, In p nodes -> In s (nx p) -> rank p < rank s.

  (** gray nodes: visited but not yet sorted *)
  Record dinv (srt vis : list nat) : Prop := {
    di_nodup : NoDup srt;
    di_fwd : fwd srt;
    di_sub : incl srt vis;
    di_nodes : incl srt nodes
  }.

  Lemma dfs_correct fuel : forall srt vis x srt' vis',
    parcours_prof_topo nx fuel (srt, vis) x = Some (srt', vis') ->
    dinv srt vis -> In x nodes -> ~ In x vis ->
    (forall y, In y vis -> ~ In y srt -> rank y < rank x) ->
    dinv srt' vis' /\
    (exists pre, srt' = x :: pre ++ srt) /\
    (forall y, In y vis' <-> In y vis \/ In y srt').
  Proof.
    induction fuel as [|fuel IH]; intros srt vis x srt' vis' E D Hx Hv Hg; [discriminate|].
    cbn [parcours_prof_topo] in E.
    set (go := fix go (l : list nat) (st : list nat * list nat) : option (list nat * list nat) :=
         match l with
         | [] => Some st
         | nxt :: l' =>
           if memb nxt (snd st) then go l' st
           else match parcours_prof_topo nx fuel st nxt with
                | Some st' => go l' st'
                | None => None
                end
         end) in E.
    assert (G : forall l srt1 vis1 srt2 vis2, go l (srt1, vis1) = Some (srt2, vis2) ->
      incl l (nx x) -> dinv srt1 vis1 -> In x vis1 -> ~ In x srt1 ->
      (forall y, In y vis1 -> ~ In y srt1 -> rank y <= rank x) ->
      dinv srt2 vis2 /\ (exists pre, srt2 = pre ++ srt1) /\
      (forall y, In y vis2 <-> In y vis1 \/ In y srt2) /\
      (forall y, In y l -> In y srt2) /\ ~ In x srt2).
    { induction l as [|y l IHl]; intros srt1 vis1 srt2 vis2 E1 Hl D1 Hxv Hxs Hg1; cbn [go] in E1.
      - injection E1 as -> ->. split; [exact D1|]. split; [exists []; reflexivity|].
        split; [|split; [intros y []|exact Hxs]]. intros z. split; [tauto|].
        intros [H|H]; [exact H|]. apply (di_sub _ _ D1). exact H.
      - cbn [snd] in E1.
        assert (Hyx : rank x < rank y) by (apply rank_inc; [exact Hx | apply Hl; left; reflexivity]).
        assert (Hyn : In y nodes) by (eapply closed; [exact Hx | apply Hl; left; reflexivity]).
        destruct (memb y vis1) eqn:Ey.
        + apply memb_In in Ey.
          destruct (IHl _ _ _ _ E1) as (D2 & (pre & P2) & V2 & A2 & X2);
            [intros z Hz; apply Hl; right; exact Hz|exact D1|exact Hxv|exact Hxs|exact Hg1|].
          split; [exact D2|]. split; [eauto|]. split; [exact V2|]. split; [|exact X2].
          intros z [<-|Hz]; [|auto].
          destruct (in_dec Nat.eq_dec y srt1) as [Hys|Hys].
          * subst srt2. apply in_or_app. right. exact Hys.
          * specialize (Hg1 y Ey Hys). lia.
        + apply memb_false in Ey.
          destruct (parcours_prof_topo nx fuel (srt1, vis1) y) as [[s3 v3]|] eqn:E3; [|discriminate].
          destruct (IH _ _ _ _ _ E3 D1 Hyn Ey) as (D3 & (pre3 & P3) & V3).
          { intros z Hz Hzs. specialize (Hg1 z Hz Hzs). lia. }
          assert (X3 : ~ In x s3).
          { intros H. subst s3. cbn in H. destruct H as [H|H]; [subst; lia|].
            (* x in pre3: then x is after y in fwd order? use visited: new nodes were unvisited *)
            pose proof (di_nodup _ _ D3) as ND.
            (* ranks: every element of s3 not in srt1 was unvisited before; x was visited *)
            assert (HH : forall fuel srt vis x0 srt' vis', parcours_prof_topo nx fuel (srt, vis) x0 = Some (srt', vis') ->
               forall z, In z vis -> ~ In z srt -> ~ In x0 vis -> ~ In z srt').
            { clear. induction fuel as [|fuel IH]; intros srt vis x0 srt' vis' E z Hz Hzs Hx0; [discriminate|].
              cbn [parcours_prof_topo] in E.
              set (go := fix go (l : list nat) (st : list nat * list nat) : option (list nat * list nat) :=
                 match l with
                 | [] => Some st
                 | nxt :: l' =>
                   if memb nxt (snd st) then go l' st
                   else match parcours_prof_topo nx fuel st nxt with
                        | Some st' => go l' st'
                        | None => None
                        end
                 end) in E.
              assert (VI : forall fuel srt vis x0 srt' vis', parcours_prof_topo nx fuel (srt, vis) x0 = Some (srt', vis') -> incl vis vis').
              { clear. induction fuel as [|fuel IH]; intros srt vis x0 srt' vis' E; [discriminate|].
                cbn [parcours_prof_topo] in E.
                set (go := fix go (l : list nat) (st : list nat * list nat) : option (list nat * list nat) :=
                   match l with
                   | [] => Some st
                   | nxt :: l' =>
                     if memb nxt (snd st) then go l' st
                     else match parcours_prof_topo nx fuel st nxt with
                          | Some st' => go l' st'
                          | None => None
                          end
                   end) in E.
                assert (G : forall l s1 v1 s2 v2, go l (s1, v1) = Some (s2, v2) -> incl v1 v2).
                { induction l as [|y l IHl]; intros s1 v1 s2 v2 E1; cbn [go] in E1.
                  - injection E1 as -> ->. apply incl_refl.
                  - cbn [snd] in E1. destruct (memb y v1); [eauto|].
                    destruct (parcours_prof_topo nx fuel (s1, v1) y) as [[s3 v3]|] eqn:E3; [|discriminate].
                    eapply incl_tran; [eapply IH; eassumption | eauto]. }
                destruct (go (nx x0) (srt, x0 :: vis)) as [[s2 v2]|] eqn:E2; [|discriminate].
                injection E as <- <-. intros w Hw. eapply G; [exact E2|]. right. exact Hw. }
              assert (G : forall l s1 v1 s2 v2, go l (s1, v1) = Some (s2, v2) -> In z v1 -> ~ In z s1 -> ~ In z s2).
              { induction l as [|y l IHl]; intros s1 v1 s2 v2 E1 H1 H2; cbn [go] in E1.
                - injection E1 as -> ->. exact H2.
                - cbn [snd] in E1. destruct (memb y v1) eqn:Ey; [eauto|]. apply memb_false in Ey.
                  destruct (parcours_prof_topo nx fuel (s1, v1) y) as [[s3 v3]|] eqn:E3; [|discriminate].
                  eapply IHl; [exact E1| |eapply IH; eassumption].
                  eapply VI; eassumption. }
              destruct (go (nx x0) (srt, x0 :: vis)) as [[s2 v2]|] eqn:E2; [|discriminate].
              injection E as <- <-. intros [->|H]; [tauto|]. revert H. eapply G; [exact E2|right; exact Hz|exact Hzs]. }
            eapply (HH _ _ _ _ _ _ E3 x Hxv Hxs Ey). right. exact H. }
          destruct (IHl _ _ _ _ E1) as (D2 & (pre & P2) & V2 & A2 & X2).
          * intros z Hz. apply Hl. right. exact Hz.
          * exact D3.
          * apply V3. left. exact Hxv.
          * exact X3.
          * intros z Hz Hzs. apply V3 in Hz. destruct Hz as [Hz|Hz]; [|tauto].
            apply Hg1; [exact Hz|]. intros H. apply Hzs. subst s3. right. apply in_or_app. right. exact H.
          * split; [exact D2|]. split; [|split; [|split; [|exact X2]]].
            -- exists (pre ++ y :: pre3). subst. rewrite <- app_assoc. reflexivity.
            -- intros z. rewrite V2, V3. split; [|tauto]. intros [[H|H]|H]; try tauto.
               right. subst srt2. apply in_or_app. right. exact H.
            -- intros z [<-|Hz]; [|auto]. subst srt2 s3. apply in_or_app. right. left. reflexivity. }
    destruct (go (nx x) (srt, x :: vis)) as [[s2 v2]|] eqn:E2; [|discriminate].
    injection E as <- <-.
    assert (Hxs : ~ In x srt) by (intros H; apply Hv; apply (di_sub _ _ D); exact H).
    destruct (G _ _ _ _ _ E2) as (D2 & (pre & P2) & V2 & A2 & X2).
    - apply incl_refl.
    - constructor; try apply D. intros z Hz. right. apply (di_sub _ _ D). exact Hz.
    - left. reflexivity.
    - exact Hxs.
    - intros y [<-|Hy] Hys; [lia|]. specialize (Hg y Hy Hys). lia.
    - split; [constructor|split].
      + constructor; [exact X2 | apply D2].
      + apply fwd_cons; [apply D2 | exact A2].
      + intros z [<-|Hz].
        * apply V2. left. left. reflexivity.
        * apply (di_sub _ _ D2). exact Hz.
      + intros z [<-|Hz]; [exact Hx | apply (di_nodes _ _ D2); exact Hz].
      + exists pre. subst. reflexivity.
      + intros z. rewrite V2. cbn. tauto.
  Qed.

  Lemma sort_all_correct fuel : forall l srt vis srt' vis',
    sort_all nx fuel l (srt, vis) = Some (srt', vis') ->
    incl l nodes -> dinv srt vis -> (forall y, In y vis <-> In y srt) ->
    dinv srt' vis' /\ (forall y, In y vis' <-> In y srt') /\ incl l srt' /\
    (exists pre, srt' = pre ++ srt).
  Proof.
    induction l as [|x l IH]; intros srt vis srt' vis' E Hl D Hv; cbn [sort_all] in E.
    - injection E as -> ->. repeat split; auto; try apply D; try apply Hv. 
      + intros y []. 
      + exists []. reflexivity.
    - cbn [snd] in E. destruct (memb x vis) eqn:Ex.
      + apply memb_In in Ex. destruct (IH _ _ _ _ E) as (D2 & V2 & I2 & (pre & P)); auto.
        { intros z Hz. apply Hl. right. exact Hz. }
        split; [exact D2|]. split; [exact V2|]. split; [|eauto].
        intros z [<-|Hz]; [|auto]. subst. apply in_or_app. right. apply Hv. exact Ex.
      + apply memb_false in Ex.
        destruct (parcours_prof_topo nx fuel (srt, vis) x) as [[s3 v3]|] eqn:E3; [|discriminate].
        destruct (dfs_correct _ _ _ _ _ _ E3 D) as (D3 & (pre3 & P3) & V3).
        { apply Hl. left. reflexivity. } { exact Ex. }
        { intros y Hy Hys. apply Hv in Hy. tauto. }
        destruct (IH _ _ _ _ E) as (D2 & V2 & I2 & (pre & P)).
        { intros z Hz. apply Hl. right. exact Hz. } { exact D3. }
        { intros y. rewrite V3. split; [|tauto]. intros [H|H]; [|exact H].
          subst s3. right. apply in_or_app. right. apply Hv. exact H. }
        split; [exact D2|]. split; [exact V2|]. split.
        * intros z [<-|Hz]; [|auto]. subst. apply in_or_app. right. left. reflexivity.
        * exists (pre ++ x :: pre3). subst. rewrite <- app_assoc. reflexivity.
  Qed.

  Lemma sort_all_total fuel l : forall srt vis, incl l nodes -> length nodes <= fuel ->
    exists srt' vis', sort_all nx fuel l (srt, vis) = Some (srt', vis').
  Proof.
    induction l as [|x l IH]; intros srt vis Hl Hf; cbn [sort_all].
    - eauto.
    - cbn [snd]. destruct (memb x vis) eqn:Ex.
      + apply IH; [|exact Hf]. intros z Hz. apply Hl. right. exact Hz.
      + apply memb_false in Ex.
        destruct (dfs_total fuel srt vis x) as (s2 & v2 & E2 & _).
        * apply Hl. left. reflexivity.
        * exact Ex.
        * unfold unvisited. eapply Nat.le_trans; [|exact Hf].
          clear. induction nodes as [|y l IH]; cbn; [lia|]. destruct (negb (memb y vis)); cbn; lia.
        * rewrite E2. apply IH; [|exact Hf]. intros z Hz. apply Hl. right. exact Hz.
  Qed.
End DFS.
