(** * Proofs about the optimiser: effect of one fusion. *)
From Coq Require Import ZArith List Lia Bool QArith Sorted Permutation.
Import ListNotations.
From Verif Require Import CMem Tensor Num Activation Conv Graph GraphSpec Net NetProofs LayerKinds FuseProofs Pattern.
From Verif Require Broadcast.
Open Scope nat_scope.

Lemma list_remove_head x l : list_remove x (x :: l) = Some l.
Proof. cbn. rewrite Nat.eqb_refl. reflexivity. Qed.
Lemma list_index_split a x b : ~ In x a -> list_index x (a ++ x :: b) = Some (length a).
Proof.
  induction a as [|y a IH]; intros H; cbn.
  - rewrite Nat.eqb_refl. reflexivity.
  - destruct (Nat.eqb_spec x y) as [E|]; [exfalso; apply H; left; auto|].
    rewrite IH by (intros K; apply H; right; exact K). reflexivity.
Qed.
Lemma list_pop_split a x b : list_pop (length a) (a ++ x :: b) = Some (a ++ b).
Proof. induction a as [|y a IH]; cbn; [reflexivity|]. rewrite IH. reflexivity. Qed.
Lemma list_index_lt x l j : list_index x l = Some j -> j < length l.
Proof.
  revert j. induction l as [|y l IH]; intros j E; cbn in *; [discriminate|].
  destruct (x =? y); [injection E as <-; lia|]. destruct (list_index x l); [|discriminate]. injection E as <-. specialize (IH n eq_refl). lia.
Qed.
Lemma list_pop_length i l l' : list_pop i l = Some l' -> S (length l') = length l.
Proof.
  revert i l'. induction l as [|y l IH]; intros i l' E; [destruct i; discriminate|].
  destruct i as [|i]; cbn in E; [injection E as <-; reflexivity|].
  destruct (list_pop i l) as [r|] eqn:E1; [|discriminate]. injection E as <-. cbn. f_equal. apply (IH i r E1).
Qed.
Lemma list_remove_length x l l' : list_remove x l = Some l' -> S (length l') = length l.
Proof.
  revert l'. induction l as [|y l IH]; intros l' E; [discriminate|]. cbn in E.
  destruct (x =? y); [injection E as <-; reflexivity|].
  destruct (list_remove x l) as [r|] eqn:E1; [|discriminate]. injection E as <-. cbn. f_equal. apply (IH r eq_refl).
Qed.
Lemma nth_error_split_nodup (l : list nat) n i l1 l2 : NoDup l -> nth_error l i = Some n -> l = l1 ++ n :: l2 -> i = length l1.
Proof.
  intros ND E ->. apply nth_error_split in E as (a & b & E & <-). destruct (split_unique l1 a n l2 b ND E) as [-> _]. reflexivity.
Qed.

Lemma dget_dpop d k k' : dget (dpop d k) k' = if Nat.eqb k' k then None else dget d k'.
Proof.
  induction d as [|[a v] d IH]; [cbn; destruct (k' =? k); reflexivity|]. unfold dpop in *. cbn [filter fst dget].
  destruct (Nat.eqb_spec k a) as [Ea|Na]; cbn [negb dget].
  - subst a. rewrite IH. destruct (Nat.eqb_spec k' k); reflexivity.
  - rewrite IH. destruct (Nat.eqb_spec k' k) as [Ek|]; [|reflexivity]. subst k'.
    destruct (Nat.eqb_spec k a); [congruence|reflexivity].
Qed.
Lemma dget_dset d k v k' : dget (dset d k v) k' = if Nat.eqb k' k then Some v else dget d k'.
Proof. unfold dset. cbn [dget]. destruct (Nat.eqb_spec k' k) as [|NE]; [reflexivity|]. rewrite dget_dpop. destruct (Nat.eqb_spec k' k); [congruence|reflexivity]. Qed.

Lemma dget_map_fun (f : nat -> nat) l a : dget (map (fun n => (n, f n)) l) a = if memb a l then Some (f a) else None.
Proof.
  induction l as [|x l IH]; [reflexivity|]. cbn. destruct (Nat.eqb_spec a x) as [->|]; [reflexivity|]. exact IH.
Qed.
Lemma dget_flat_map (f : nat -> option nat) l a :
  dget (flat_map (fun n => match f n with Some k => [(n, k)] | None => [] end) l) a = if memb a l then f a else None.
Proof.
  induction l as [|x l IH]; [reflexivity|]. cbn [flat_map memb existsb]. fold (memb a l).
  destruct (f x) as [k|] eqn:E; cbn [app dget].
  - destruct (Nat.eqb_spec a x) as [->|]; cbn; [symmetry; exact E|exact IH].
  - rewrite IH. destruct (Nat.eqb_spec a x) as [->|]; cbn; [|reflexivity]. rewrite E. destruct (memb x l); reflexivity.
Qed.
Lemma memb_In x l : memb x l = true <-> In x l.
Proof.
  unfold memb. rewrite existsb_exists. split.
  - intros (y & Hy & E). apply Nat.eqb_eq in E. subst. exact Hy.
  - intros H. exists x. split; [exact H|apply Nat.eqb_refl].
Qed.
Lemma memb_false x l : memb x l = false <-> ~ In x l.
Proof. rewrite <- memb_In. destruct (memb x l); split; intros; congruence. Qed.

Section Proofs.
  Context (N : num).
  Notation pnet := (pnet N).
  Implicit Types st : pnet.

  Lemma put_same {A} (f : nat -> A) k v : put f k v k = v.
  Proof. unfold put. rewrite Nat.eqb_refl. reflexivity. Qed.
  Lemma put_other {A} (f : nat -> A) k v a : a <> k -> put f k v a = f a.
  Proof. intros H. unfold put. destruct (Nat.eqb_spec a k); [congruence|reflexivity]. Qed.

  Lemma sched_path st a : In a (pn_layers N st) -> dget (paths (schedule_of N st)) a = Some (pn_path N st a).
  Proof. intros H. cbn [schedule_of paths]. rewrite dget_map_fun. apply memb_In in H. rewrite H. reflexivity. Qed.
  Lemma sched_saved st a : In a (pn_layers N st) -> dget (csts (schedule_of N st)) a = saved_in N st a.
  Proof. intros H. cbn [schedule_of csts]. rewrite dget_flat_map. apply memb_In in H. rewrite H. reflexivity. Qed.
  Lemma sched_out st a : In a (pn_layers N st) ->
    output_str (schedule_of N st) a = Some (match saved_in N st a with Some k => Cst k | None => Out (pn_path N st a) end).
  Proof. intros H. unfold output_str. rewrite (sched_saved st a H), (sched_path st a H). destruct (saved_in N st a); reflexivity. Qed.

  (** ** update_next_layers *)
  Lemma update_next_loop n p l : forall st, NoDup (pn_next N st p ++ l) ->
    let st' := fold_left (fun st nx =>
      let st' := if memb nx (pn_next N st p) then st else set_next N st p (pn_next N st p ++ [nx]) in
      set_prev N st' nx (replace_in n p (pn_prev N st' nx))) l st in
    pn_next N st' p = pn_next N st p ++ l /\
    (forall a, a <> p -> pn_next N st' a = pn_next N st a) /\
    (forall c, pn_prev N st' c = if memb c l then replace_one n p (pn_prev N st c) else pn_prev N st c) /\
    pn_layers N st' = pn_layers N st /\ pn_idx N st' = pn_idx N st /\ pn_path N st' = pn_path N st /\
    pn_str N st' = pn_str N st /\ pn_layer N st' = pn_layer N st /\ pn_dict N st' = pn_dict N st /\
    pn_max N st' = pn_max N st /\ pn_last N st' = pn_last N st.
  Proof.
    induction l as [|c l IH]; intros st ND st'.
    { subst st'. cbn. rewrite app_nil_r. repeat split; reflexivity. }
    cbn [fold_left] in st'.
    assert (NC : memb c (pn_next N st p) = false).
    { apply memb_false. intros H. apply NoDup_remove in ND as [_ ND]. apply ND. apply in_or_app. left. exact H. }
    set (st1 := set_prev N (set_next N st p (pn_next N st p ++ [c])) c
                  (replace_in n p (pn_prev N (set_next N st p (pn_next N st p ++ [c])) c))).
    assert (E1 : st' = fold_left (fun st nx =>
      let st' := if memb nx (pn_next N st p) then st else set_next N st p (pn_next N st p ++ [nx]) in
      set_prev N st' nx (replace_in n p (pn_prev N st' nx))) l st1).
    { subst st' st1. rewrite NC. reflexivity. }
    assert (EN : pn_next N st1 p = pn_next N st p ++ [c]) by (subst st1; cbn; apply put_same).
    destruct (IH st1) as (H1 & H2 & H3 & H4 & H5 & H6 & H7 & H8 & H9 & H10 & H11).
    { rewrite EN, <- app_assoc. exact ND. }
    rewrite E1. split; [rewrite H1, EN, <- app_assoc; reflexivity|].
    split; [intros a Ha; rewrite (H2 a Ha); subst st1; cbn; apply put_other; exact Ha|].
    split.
    { intros a. rewrite H3. cbn [memb existsb]. fold (memb a l). destruct (Nat.eqb_spec a c) as [Ea|Na].
      - subst a. assert (NL : memb c l = false).
        { apply memb_false. clear -ND. revert ND. generalize (pn_next N st p). intros l0. induction l0 as [|y l0 IH0]; cbn; intros ND; inversion ND; auto. }
        rewrite NL. cbn. apply put_same.
      - cbn [orb]. replace (pn_prev N st1 a) with (pn_prev N st a); [reflexivity|].
        subst st1. cbn. symmetry. apply put_other. exact Na. }
    rewrite H4, H5, H6, H7, H8, H9, H10, H11. repeat split; reflexivity.
  Qed.
  (** ** update_indices *)
  Definition renumber (ref i : nat) : nat := if Nat.ltb ref i then i - 1 else i.
  Definition renumber_step ref (st : pnet) (o : nat) : pnet :=
      let i := pn_idx N st o in
      if Nat.ltb ref i then
        let st' := match dget (pn_dict N st) i with
                   | Some c => set_dict N st (dset (dpop (pn_dict N st) i) (i - 1) c)
                   | None => st
                   end in
        set_idx N st' o (i - 1)
      else st.
  Definition same_but_ids (st st' : pnet) : Prop :=
    pn_layers N st' = pn_layers N st /\ pn_prev N st' = pn_prev N st /\ pn_next N st' = pn_next N st /\
    pn_path N st' = pn_path N st /\ pn_str N st' = pn_str N st /\ pn_layer N st' = pn_layer N st /\
    pn_max N st' = pn_max N st /\ pn_last N st' = pn_last N st.

  Lemma renumber_loop ref idx0 dict0 l2 : forall l1 st,
    NoDup (l1 ++ l2) -> StronglySorted lt (map idx0 (l1 ++ l2)) ->
    (forall o, In o (l1 ++ l2) -> idx0 o <> S ref) ->
    (forall o, In o l1 -> pn_idx N st o = renumber ref (idx0 o) /\ dget (pn_dict N st) (renumber ref (idx0 o)) = dget dict0 (idx0 o)) ->
    (forall o, In o l2 -> pn_idx N st o = idx0 o /\ dget (pn_dict N st) (idx0 o) = dget dict0 (idx0 o)) ->
    (forall k, dget (pn_dict N st) k <> None -> (exists o, In o l1 /\ k = renumber ref (idx0 o)) \/ (exists o, In o l2 /\ k = idx0 o)) ->
    let st' := fold_left (renumber_step ref) l2 st in
    same_but_ids st st' /\
    (forall o, In o (l1 ++ l2) -> pn_idx N st' o = renumber ref (idx0 o) /\ dget (pn_dict N st') (renumber ref (idx0 o)) = dget dict0 (idx0 o)) /\
    (forall k, dget (pn_dict N st') k <> None -> exists o, In o (l1 ++ l2) /\ k = renumber ref (idx0 o)).
  Proof.
    induction l2 as [|o l2 IH]; intros l1 st ND SS NR H1 H2 H3.
    { cbn. split; [repeat split; reflexivity|]. rewrite app_nil_r. split; [exact H1|].
      intros k Hk. destruct (H3 k Hk) as [H|(o & [] & _)]. exact H. }
    cbn [fold_left].
    assert (Ho := H2 o (or_introl eq_refl)). destruct Ho as [Ho1 Ho2].
    assert (LT1 : forall o1, In o1 l1 -> idx0 o1 < idx0 o).
    { intros o1 Ho1'. rewrite map_app in SS. cbn in SS. clear -SS Ho1'. induction l1 as [|x l1 IH]; [destruct Ho1'|].
      cbn in SS. inversion SS as [|? ? S1 S2]; subst. destruct Ho1' as [->|H]; [|apply IH; assumption].
      rewrite Forall_forall in S2. apply S2. apply in_or_app. right. left. reflexivity. }
    assert (LT2 : forall o2, In o2 l2 -> idx0 o < idx0 o2).
    { intros o2 Ho2'. rewrite map_app in SS. cbn in SS. clear -SS Ho2'. induction l1 as [|x l1 IH].
      - cbn in SS. inversion SS as [|? ? S1 S2]; subst. rewrite Forall_forall in S2. apply S2. apply in_map. exact Ho2'.
      - apply IH. cbn in SS. inversion SS; assumption. }
    assert (NO : idx0 o <> S ref) by (apply NR; apply in_or_app; right; left; reflexivity).
    assert (NE1 : forall o1, In o1 l1 -> o1 <> o) by (intros o1 H ->; specialize (LT1 o H); lia).
    assert (NE2 : forall o1, In o1 l2 -> o1 <> o) by (intros o1 H ->; specialize (LT2 o H); lia).
    assert (F1 : ref < idx0 o -> forall o1, In o1 l1 -> renumber ref (idx0 o1) < idx0 o - 1).
    { intros HR o1 Hi. specialize (LT1 o1 Hi). unfold renumber. destruct (Nat.ltb_spec ref (idx0 o1)); lia. }
    set (st1 := renumber_step ref st o).
    assert (K : same_but_ids st st1 /\
      (forall o', In o' (l1 ++ [o]) -> pn_idx N st1 o' = renumber ref (idx0 o') /\ dget (pn_dict N st1) (renumber ref (idx0 o')) = dget dict0 (idx0 o')) /\
      (forall o', In o' l2 -> pn_idx N st1 o' = idx0 o' /\ dget (pn_dict N st1) (idx0 o') = dget dict0 (idx0 o')) /\
      (forall k, dget (pn_dict N st1) k <> None -> (exists o', In o' (l1 ++ [o]) /\ k = renumber ref (idx0 o')) \/ (exists o', In o' l2 /\ k = idx0 o'))).
    { subst st1. unfold renumber_step. rewrite Ho1. destruct (Nat.ltb_spec ref (idx0 o)) as [HR|HR].
      - assert (EO : renumber ref (idx0 o) = idx0 o - 1) by (unfold renumber; destruct (Nat.ltb_spec ref (idx0 o)); lia).
        set (d1 := match dget (pn_dict N st) (idx0 o) with Some c => dset (dpop (pn_dict N st) (idx0 o)) (idx0 o - 1) c | None => pn_dict N st end).
        match goal with |- same_but_ids st (set_idx N ?s o _) /\ _ => set (st2 := s) end.
        assert (E2 : pn_dict N st2 = d1 /\ pn_idx N st2 = pn_idx N st /\ same_but_ids st st2).
        { subst st2 d1. destruct (dget (pn_dict N st) (idx0 o)); repeat split; reflexivity. }
        destruct E2 as (Ed & Ei & Es).
        assert (D1 : dget d1 (idx0 o - 1) = dget dict0 (idx0 o)).
        { subst d1. destruct (dget (pn_dict N st) (idx0 o)) as [c|] eqn:Ec.
          - rewrite dget_dset, Nat.eqb_refl. congruence.
          - rewrite <- Ho2. destruct (dget (pn_dict N st) (idx0 o - 1)) as [v|] eqn:Ev; [|reflexivity]. exfalso.
            destruct (H3 (idx0 o - 1)) as [(o1 & Hi & E)|(o1 & Hi & E)]; [congruence| |].
            + specialize (F1 HR o1 Hi). lia.
            + destruct Hi as [<-|Hi]; [lia|]. specialize (LT2 o1 Hi). lia. }
        assert (D2 : forall k, k <> idx0 o -> k <> idx0 o - 1 -> dget d1 k = dget (pn_dict N st) k).
        { intros k K1 K2. subst d1. destruct (dget (pn_dict N st) (idx0 o)) as [c|]; [|reflexivity].
          rewrite dget_dset, dget_dpop. destruct (Nat.eqb_spec k (idx0 o - 1)); [congruence|]. destruct (Nat.eqb_spec k (idx0 o)); [congruence|reflexivity]. }
        assert (D3 : dget d1 (idx0 o) = None).
        { subst d1. destruct (dget (pn_dict N st) (idx0 o)) as [c|] eqn:Ec; [|exact Ec].
          rewrite dget_dset, dget_dpop, Nat.eqb_refl. destruct (Nat.eqb_spec (idx0 o) (idx0 o - 1)); [lia|reflexivity]. }
        split; [exact Es|]. cbn [set_idx pn_idx pn_dict]. rewrite Ed, Ei. split; [|split].
        + intros o' Hi. apply in_app_or in Hi. destruct Hi as [Hi|[<-|[]]].
          * rewrite put_other by (apply NE1; exact Hi). destruct (H1 o' Hi) as [A1 A2]. split; [exact A1|].
            rewrite D2; [exact A2| |]; specialize (F1 HR o' Hi); lia.
          * rewrite put_same. split; [symmetry; exact EO|]. rewrite EO. exact D1.
        + intros o' Hi. rewrite put_other by (apply NE2; exact Hi). destruct (H2 o' (or_intror Hi)) as [A1 A2].
          split; [exact A1|]. specialize (LT2 o' Hi). rewrite D2 by lia. exact A2.
        + intros k Hk. destruct (Nat.eq_dec k (idx0 o)) as [->|K1]; [congruence|].
          destruct (Nat.eq_dec k (idx0 o - 1)) as [->|K2].
          { left. exists o. split; [apply in_or_app; right; left; reflexivity|]. symmetry. exact EO. }
          rewrite D2 in Hk by assumption. destruct (H3 k Hk) as [(o1 & Hi & E)|(o1 & [<-|Hi] & E)].
          * left. exists o1. split; [apply in_or_app; left; exact Hi|exact E].
          * congruence.
          * right. exists o1. auto.
      - assert (EO : renumber ref (idx0 o) = idx0 o) by (unfold renumber; destruct (Nat.ltb_spec ref (idx0 o)); lia).
        split; [repeat split; reflexivity|]. split; [|split].
        + intros o' Hi. apply in_app_or in Hi. destruct Hi as [Hi|[<-|[]]]; [apply H1; exact Hi|].
          rewrite EO. split; assumption.
        + intros o' Hi. apply H2. right. exact Hi.
        + intros k Hk. destruct (H3 k Hk) as [(o1 & Hi & E)|(o1 & [<-|Hi] & E)].
          * left. exists o1. split; [apply in_or_app; left; exact Hi|exact E].
          * left. exists o. split; [apply in_or_app; right; left; reflexivity|]. rewrite EO. exact E.
          * right. exists o1. auto. }
    destruct K as (K0 & K1 & K2 & K3).
    assert (EA : l1 ++ o :: l2 = (l1 ++ [o]) ++ l2) by (rewrite <- app_assoc; reflexivity).
    rewrite EA in ND, SS, NR |- *.
    destruct (IH (l1 ++ [o]) st1 ND SS NR K1 K2 K3) as (R1 & R2 & R3). split; [|split; [exact R2|exact R3]].
    destruct K0 as (A1 & A2 & A3 & A4 & A5 & A6 & A7 & A8), R1 as (B1 & B2 & B3 & B4 & B5 & B6 & B7 & B8).
    repeat split; congruence.
  Qed.

  Lemma update_indices_spec index st r :
    nth_error (pn_layers N st) index = Some r -> 1 <= index -> NoDup (pn_layers N st) ->
    StronglySorted lt (map (pn_idx N st) (pn_layers N st)) ->
    (forall o, In o (pn_layers N st) -> pn_idx N st o <> S (pn_idx N st r)) ->
    (forall k, dget (pn_dict N st) k <> None -> exists o, In o (pn_layers N st) /\ k = pn_idx N st o) ->
    exists st', update_indices N index 1 st = Some st' /\ same_but_ids st st' /\
      (forall o, In o (pn_layers N st) -> pn_idx N st' o = renumber (pn_idx N st r) (pn_idx N st o) /\
         saved_in N st' o = saved_in N st o) /\
      (forall k, dget (pn_dict N st') k <> None -> exists o, In o (pn_layers N st) /\ k = pn_idx N st' o) /\
      StronglySorted lt (map (pn_idx N st') (pn_layers N st)).
  Proof.
    intros Er Hi ND SS NR KD. unfold update_indices. rewrite Er. cbn [bind].
    destruct (Nat.ltb_spec index 1) as [|_]; [lia|]. eexists. split; [reflexivity|].
    destruct (renumber_loop (pn_idx N st r) (pn_idx N st) (pn_dict N st) (pn_layers N st) [] st ND SS NR) as (R1 & R2 & R3).
    { intros o []. }
    { intros o _. split; reflexivity. }
    { intros k Hk. right. apply KD. exact Hk. }
    change (fun (st : pnet) (o : nat) => _) with (renumber_step (pn_idx N st r)).
    cbn [app] in *. split; [exact R1|].
    set (st' := fold_left (renumber_step (pn_idx N st r)) (pn_layers N st) st) in *.
    split; [|split].
    - intros o Ho. destruct (R2 o Ho) as [A1 A2]. split; [exact A1|]. unfold saved_in. rewrite A1. exact A2.
    - intros k Hk. destruct (R3 k Hk) as (o & Ho & ->). exists o. split; [exact Ho|]. symmetry. apply R2. exact Ho.
    - assert (E : map (pn_idx N st') (pn_layers N st) = map (fun o => renumber (pn_idx N st r) (pn_idx N st o)) (pn_layers N st)).
      { apply map_ext_in. intros o Ho. apply R2. exact Ho. }
      rewrite E. clear -SS NR. induction (pn_layers N st) as [|x l IH]; [constructor|].
      cbn in SS |- *. inversion SS as [|? ? S1 S2]; subst. constructor.
      + apply IH; [exact S1|]. intros o Ho. apply NR. right. exact Ho.
      + apply Forall_forall. intros k Hk. apply in_map_iff in Hk as (o & <- & Ho).
        rewrite Forall_forall in S2. specialize (S2 (pn_idx N st o) (in_map _ _ _ Ho)).
        pose proof (NR o (or_intror Ho)). unfold renumber.
        destruct (Nat.ltb_spec (pn_idx N st r) (pn_idx N st x)), (Nat.ltb_spec (pn_idx N st r) (pn_idx N st o)); lia.
  Qed.
End Proofs.
