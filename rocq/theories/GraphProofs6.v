(** * Chains stay together: a layer read only by [b], where [b] reads nothing
    else, comes right before [b] in the order of the generated code. *)
From Coq Require Import List Arith Bool Lia Permutation.
Import ListNotations.
From Verif Require Import Graph GraphSpec GraphProofs GraphProofs2 GraphProofs3 FuseProofs.

Lemma adjacent_cons x l a b : adjacent l a b -> adjacent (x :: l) a b.
Proof. intros (u & v & ->). exists (x :: u), v. reflexivity. Qed.
Lemma adjacent_app r l a b : adjacent l a b -> adjacent (r ++ l) a b.
Proof. intros (u & v & ->). exists (r ++ u), v. rewrite app_assoc. reflexivity. Qed.
Lemma adjacent_filter (f : nat -> bool) l a b : f a = true -> f b = true -> adjacent l a b -> adjacent (filter f l) a b.
Proof.
  intros Fa Fb (u & v & ->). exists (filter f u), (filter f v). rewrite filter_app. cbn. rewrite Fa, Fb. reflexivity.
Qed.

Section Chain.
  Context (nodes : list nat) (nx : nat -> list nat) (a b : nat).
  Hypothesis closed : forall l i, In l nodes -> In i (nx l) -> In i nodes.
  Hypothesis AB : a <> b.
  Hypothesis NA : nx a = [b].
  Hypothesis NB : forall x, In x nodes -> In b (nx x) -> x = a.

  Definition chain_inv (srt vis : list nat) : Prop := (In b vis -> In a vis) /\ (In a srt -> adjacent srt a b).

  Lemma dfs_chain fuel : forall srt vis x srt' vis', parcours_prof_topo nx fuel (srt, vis) x = Some (srt', vis') ->
    chain_inv srt vis -> In x nodes -> ~ In x vis -> (x = b -> In a vis) ->
    chain_inv srt' vis' /\ incl vis vis' /\ In x vis' /\ (exists t, srt' = x :: t) /\ (In a vis -> In a srt' -> In a srt).
  Proof.
    induction fuel as [|fuel IH]; intros srt vis x srt' vis' E [J1 J2] Hxn Hx Hb; [discriminate|].
    cbn [parcours_prof_topo] in E.
    set (go := fix go (l : list nat) (st : list nat * list nat) : option (list nat * list nat) :=
         match l with
         | [] => Some st
         | nxt :: l' =>
           if memb nxt (snd st) then go l' st
           else match parcours_prof_topo nx fuel st nxt with
                | Some st' => go l' st'
                | None => None
                end
         end) in E.
    assert (G : forall l srt1 vis1 srt2 vis2, go l (srt1, vis1) = Some (srt2, vis2) -> chain_inv srt1 vis1 ->
      incl l nodes -> (In b l -> In a vis1) ->
      chain_inv srt2 vis2 /\ incl vis1 vis2 /\ (In a vis1 -> In a srt2 -> In a srt1)).
    { induction l as [|y l IHl]; intros srt1 vis1 srt2 vis2 E1 J Hn Hl; cbn [go] in E1.
      - injection E1 as <- <-. split; [exact J|]. split; [apply incl_refl|auto].
      - cbn [snd] in E1. destruct (memb y vis1) eqn:My.
        + apply (IHl _ _ _ _ E1 J); [intros w Hw; apply Hn; right; exact Hw|]. intros H. apply Hl. right. exact H.
        + apply memb_false in My. destruct (parcours_prof_topo nx fuel (srt1, vis1) y) as [[s3 v3]|] eqn:E3; [|discriminate].
          destruct (IH _ _ _ _ _ E3 J (Hn y (or_introl eq_refl)) My) as (K1 & K2 & K3 & K4 & K5); [intros ->; apply Hl; left; reflexivity|].
          destruct (IHl _ _ _ _ E1 K1) as (L1 & L2 & L3).
          { intros w Hw; apply Hn; right; exact Hw. }
          { intros H. apply K2. apply Hl. right. exact H. }
          split; [exact L1|]. split; [eapply incl_tran; eassumption|]. intros Ha Hs. apply (K5 Ha). apply L3; [apply K2; exact Ha|exact Hs]. }
    destruct (Nat.eq_dec x a) as [Exa|Nxa].
    - subst x. rewrite NA in E. cbn [go] in E. cbn [snd] in E.
      assert (Mb : memb b (a :: vis) = false).
      { apply memb_false. intros [H|H]; [congruence|]. apply Hx. apply J1. exact H. }
      rewrite Mb in E. destruct (parcours_prof_topo nx fuel (srt, a :: vis) b) as [[s3 v3]|] eqn:E3; [|discriminate].
      apply memb_false in Mb. destruct (IH _ _ _ _ _ E3) as ((K1 & K1') & K2 & K3 & (t & K4) & K5).
      { split; [intros _; left; reflexivity|exact J2]. }
      { apply (closed a); [exact Hxn|]. rewrite NA. left. reflexivity. }
      { exact Mb. }
      { intros _. left. reflexivity. }
      injection E as <- <-. split; [split|].
      + intros _. apply K2. left. reflexivity.
      + intros _. subst s3. exists [], t. reflexivity.
      + split; [intros y Hy; apply K2; right; exact Hy|]. split; [apply K2; left; reflexivity|]. split; [eexists; reflexivity|].
        intros Ha. contradiction.
    - destruct (go (nx x) (srt, x :: vis)) as [[s3 v3]|] eqn:E3; [|discriminate]. injection E as <- <-.
      destruct (G (nx x) srt (x :: vis) s3 v3 E3) as ((K1 & K1') & K2 & K3).
      + split; [|exact J2]. intros [H|H]; [right; apply Hb; exact H|right; apply J1; exact H].
      + intros w Hw. apply (closed x); assumption.
      + intros H. exfalso. apply Nxa. apply NB; assumption.
      + split; [split; [exact K1|]|].
        * intros [H|H]; [congruence|]. apply adjacent_cons. apply K1'. exact H.
        * split; [intros y Hy; apply K2; right; exact Hy|]. split; [apply K2; left; reflexivity|]. split; [eexists; reflexivity|].
          intros Ha [H|H]; [congruence|]. apply K3; [right; exact Ha|exact H].
  Qed.
End Chain.

Lemma tri_topo_chains g inp s : linked g -> acyclic g -> no_repeated_input g -> constants_are_sources g -> single_input g inp ->
  tri_topo g = Some s ->
  forall a b, In a (dnn g) -> In b (dnn g) -> previous_layer g b = [a] -> next_layer g a = [b] -> a <> inp -> adjacent (order s) a b.
Proof.
  intros L HA NR CS SI HS a b Ha Hb Pb Na Ni. pose proof SI as (Hhd & Hic & Hip & Hs). pose proof HA as (rank & HR).
  assert (CL : forall l i, In l (dnn g) -> In i (next_layer g l) -> In i (dnn g)).
  { intros l i Hl Hi. eapply (links_closed g L); eauto. }
  assert (AB : a <> b).
  { intros E. pose proof (HR a b Ha ltac:(rewrite Na; left; reflexivity)). rewrite E in H. lia. }
  assert (Nbi : b <> inp) by (intros E; rewrite <- E, Pb in Hip; discriminate).
  assert (Cb : is_constant g b = false).
  { destruct (is_constant g b) eqn:E; [|reflexivity]. rewrite (CS b Hb E) in Pb. discriminate. }
  assert (Ca : is_constant g a = false).
  { destruct (Hs b Hb Nbi Cb) as (x & Hx & Ex). rewrite Pb in Hx. destruct Hx as [<-|[]]. exact Ex. }
  assert (Hin : In inp (dnn g)) by (destruct (dnn g); [discriminate|]; injection Hhd as ->; left; reflexivity).
  (* the sort *)
  unfold tri_topo in HS. destruct (depth_first_sort g) as [srt|] eqn:ED; [|discriminate].
  assert (AD : adjacent srt a b).
  { unfold depth_first_sort in ED. destruct (sort_all (next_layer g) (S (length (dnn g))) (dnn g) ([], [])) as [[srt0 vis0]|] eqn:E; [|discriminate].
    injection ED as ->. revert E. generalize (S (length (dnn g))). intros fuel E.
    assert (D0 : dinv (dnn g) (next_layer g) [] []).
    { constructor; try (intros z []; fail); [constructor|]. intros [|? ?] ? ? H; discriminate H. }
    assert (EX : exists rest, dnn g = inp :: rest) by (destruct (dnn g) as [|x rest]; [discriminate|]; injection Hhd as ->; eauto).
    destruct EX as (rest & Ed). assert (Rin : incl rest (dnn g)) by (intros y Hy; rewrite Ed; right; exact Hy). rewrite Ed in E.
    cbn [sort_all] in E. change (memb inp (snd (@nil nat, @nil nat))) with false in E. cbv iota in E.
    destruct (parcours_prof_topo (next_layer g) fuel ([], []) inp) as [[s1 v1]|] eqn:E1; [|discriminate].
    destruct (dfs_correct (dnn g) (next_layer g) CL rank HR _ _ _ _ _ _ E1 D0) as (D1 & (pre & P1) & V1).
    { exact Hin. } { intros []. } { intros y []. }
    destruct (sort_all_correct (dnn g) (next_layer g) CL rank HR _ _ _ _ _ _ E) as (D2 & V2 & I2 & (pre2 & P2)).
    { exact Rin. } { exact D1. }
    { intros y. rewrite V1. cbn. tauto. }
    assert (RE : forall k l, rank l < k -> In l (dnn g) -> is_constant g l = false -> In l s1).
    { induction k as [|k IH]; intros l Hk Hl Hlc; [lia|].
      destruct (Nat.eq_dec l inp) as [->|Hne]; [subst s1; left; reflexivity|].
      destruct (Hs l Hl Hne Hlc) as (p & Hp & Hpc).
      assert (Hpn : In p (dnn g)) by (eapply (links_closed g L); [exact Hl|right; exact Hp]).
      assert (Hln : In l (next_layer g p)) by (apply (linked_In g p l L); assumption).
      assert (Hps : In p s1).
      { apply IH; [|exact Hpn|exact Hpc]. specialize (HR p l Hpn Hln). lia. }
      apply in_split in Hps. destruct Hps as (u & v & Eab).
      pose proof (di_fwd _ _ _ _ D1 u p v Eab l Hln) as Hv. rewrite Eab. apply in_or_app. right. right. exact Hv. }
    assert (NB : forall x, In x (dnn g) -> In b (next_layer g x) -> x = a).
    { intros x Hx H. apply (linked_In g x b L Hx Hb) in H. rewrite Pb in H. destruct H as [H|[]]. congruence. }
    destruct (dfs_chain (dnn g) (next_layer g) a b CL AB Na NB fuel [] [] inp s1 v1 E1) as ((_ & K) & _).
    - split; intros [].
    - exact Hin.
    - intros [].
    - congruence.
    - rewrite P2. apply adjacent_app. apply K. apply (RE (S (rank a))); [lia|exact Ha|exact Ca]. }
  destruct (hoist_constants g srt) as [ord|] eqn:EH; [|discriminate].
  destruct (assign_liveliness_index g ord) as [ps|]; [|discriminate]. injection HS as <-. cbn [order].
  destruct (single_input_first g inp L HA SI) as (srt' & os & E1 & E2). rewrite E1 in ED. injection ED as ->.
  unfold hoist_constants in EH. rewrite E2 in EH. injection EH as <-.
  apply adjacent_cons. apply adjacent_app.
  assert (AF : adjacent (inp :: os) a b).
  { rewrite <- E2. apply adjacent_filter; [rewrite Ca; reflexivity|rewrite Cb; reflexivity|exact AD]. }
  destruct AF as (u & v & E). destruct u as [|y u]; [injection E as E _; congruence|]. injection E as _ ->. exists u, v. reflexivity.
Qed.
