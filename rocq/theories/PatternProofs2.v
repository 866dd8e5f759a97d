(** * One fusion keeps what the generated code relies on. *)
From Coq Require Import ZArith List Lia Bool QArith Sorted Permutation.
Import ListNotations.
From Verif Require Import CMem Tensor Num Activation Conv Graph GraphSpec GraphProofs GraphProofs4 Net NetProofs LayerKinds
  FuseProofs Pattern PatternProofs ModelProofs.
From Verif Require Broadcast.
Open Scope nat_scope.

Section Proofs.
  Context (N : num) (ninf : T N) (q : Q -> T N).
  Notation V := (T N).
  Notation pnet := (pnet N).
  Implicit Types st : pnet.

  Record pinv (inp : nat) st : Prop := {
    pv_supported : supported N (model_of N st) inp;
    pv_runnable : runnable (graph_of N st) (schedule_of N st);
    pv_str : forall a, In a (pn_layers N st) -> output_str (schedule_of N st) a = Some (pn_str N st a);
    pv_chains : chains_adjacent (graph_of N st) inp;
    pv_ids : StronglySorted lt (map (pn_idx N st) (pn_layers N st));
    pv_keys : forall k, dget (pn_dict N st) k <> None -> exists o, In o (pn_layers N st) /\ k = pn_idx N st o
  }.

  (** What both fusions do to the objects; [L] is the new content of [p]. *)
  Record effect st st' (l1 : list nat) (p n : nat) (l2 : list nat) (L : layer N) : Prop := {
    ef_layers : pn_layers N st' = l1 ++ p :: l2;
    ef_prev : forall c, In c (l1 ++ p :: l2) -> pn_prev N st' c = replace_one n p (pn_prev N st c);
    ef_prev_n : pn_prev N st' n = pn_prev N st n;
    ef_next : pn_next N st' p = pn_next N st n;
    ef_next_o : forall a, a <> p -> pn_next N st' a = pn_next N st a;
    ef_path : forall a, pn_path N st' a = pn_path N st a;
    ef_str : pn_str N st' p = pn_str N st n;
    ef_str_o : forall a, a <> p -> pn_str N st' a = pn_str N st a;
    ef_layer : pn_layer N st' p = L;
    ef_layer_o : forall a, a <> p -> pn_layer N st' a = pn_layer N st a;
    ef_max : pn_max N st' = pn_max N st;
    ef_last : pn_last N st' = pn_last N st
  }.
  Record effect_before st st' l1 p n l2 L : Prop := {
    eb_effect : effect st st' l1 p n l2 L;
    eb_idx : forall a, pn_idx N st' a = pn_idx N st a;
    eb_dict : forall k, dget (pn_dict N st') k =
      if Nat.eqb k (pn_idx N st n) then None
      else if Nat.eqb k (pn_idx N st p) then dget (pn_dict N st) (pn_idx N st n) else dget (pn_dict N st) k
  }.
  Record effect_after st st' l1 p n l2 L : Prop := {
    ea_effect : effect st st' l1 p n l2 L;
    ea_saved : saved_in N st' p = saved_in N st n;
    ea_saved_o : forall a, In a (l1 ++ p :: l2) -> a <> p -> saved_in N st' a = saved_in N st a;
    ea_ids : StronglySorted lt (map (pn_idx N st') (pn_layers N st'));
    ea_keys : forall k, dget (pn_dict N st') k <> None -> exists o, In o (pn_layers N st') /\ k = pn_idx N st' o
  }.

  Section Pair.
    Context (inp : nat) st (l1 : list nat) (p n : nat) (l2 : list nat).
    Hypothesis PV : pinv inp st.
    Hypothesis EL : pn_layers N st = l1 ++ p :: n :: l2.
    Hypothesis EP : pn_prev N st n = [p].
    Hypothesis EN : pn_next N st p = [n].
    Hypothesis NI : p <> inp.

    Notation SP := (pv_supported inp st PV).
    Notation g := (graph_of N st).

    Lemma pair_nodup : NoDup (l1 ++ p :: n :: l2).
    Proof. rewrite <- EL. exact (ids_distinct g (sp_linked N _ inp SP)). Qed.
    Lemma pair_facts : NoDup (l1 ++ p :: l2) /\ ~ In n (l1 ++ p :: l2) /\ ~ In p l1 /\ p <> n.
    Proof.
      pose proof pair_nodup as ND.
      assert (~ In p l1 /\ p <> n).
      { apply NoDup_remove in ND as [_ ND]. split; intros H; apply ND; apply in_or_app; [left|right; left]; auto. }
      replace (l1 ++ p :: n :: l2) with ((l1 ++ [p]) ++ n :: l2) in ND by (rewrite <- app_assoc; reflexivity).
      apply NoDup_remove in ND. rewrite <- app_assoc in ND. cbn in ND. tauto.
    Qed.
    Lemma pair_p_in : In p (pn_layers N st). Proof. rewrite EL. apply in_or_app. right. left. reflexivity. Qed.
    Lemma pair_n_in : In n (pn_layers N st). Proof. rewrite EL. apply in_or_app. right. right. left. reflexivity. Qed.
    Lemma pair_hd : exists l1', l1 = inp :: l1'.
    Proof.
      pose proof (sp_single N _ inp SP) as (H & _). cbn in H. rewrite EL in H.
      destruct l1 as [|x l1']; cbn in H; injection H as H; [congruence|]. exists l1'. congruence.
    Qed.
    Lemma pair_in a : In a (l1 ++ p :: l2) -> In a (pn_layers N st).
    Proof.
      rewrite EL. intros H. apply in_app_or in H. apply in_or_app. destruct H as [H|[H|H]]; auto; right; [left|right; right]; assumption.
    Qed.
    Lemma pair_p_unsaved : saved_in N st p = None.
    Proof.
      destruct (saved_in N st p) as [k|] eqn:E; [|reflexivity]. exfalso.
      assert (X : exists k, dget (csts (schedule_of N st)) p = Some k).
      { exists k. rewrite sched_saved by exact pair_p_in. exact E. }
      apply (rn_saved _ _ (pv_runnable inp st PV) p pair_p_in) in X. cbn in X. rewrite EN in X. cbn in X. lia.
    Qed.
    (** idx of the pair *)
    Lemma pair_ids : pn_idx N st p < pn_idx N st n /\ (forall a, In a (l1 ++ p :: l2) -> pn_idx N st a <> pn_idx N st n) /\
      (forall a, In a (l1 ++ p :: l2) -> pn_idx N st a <= pn_idx N st p \/ pn_idx N st n < pn_idx N st a) /\
      (forall a, In a (l1 ++ p :: l2) -> a <> p -> pn_idx N st a <> pn_idx N st p) /\
      StronglySorted lt (map (pn_idx N st) (l1 ++ p :: l2)).
    Proof.
      pose proof (pv_ids inp st PV) as SS. rewrite EL in SS. rewrite map_app in SS. cbn in SS.
      assert (K : forall l : list nat, StronglySorted lt (map (pn_idx N st) l ++ pn_idx N st p :: pn_idx N st n :: map (pn_idx N st) l2) ->
        (forall a, In a l -> pn_idx N st a < pn_idx N st p) /\ pn_idx N st p < pn_idx N st n /\
        (forall a, In a l2 -> pn_idx N st n < pn_idx N st a) /\
        StronglySorted lt (map (pn_idx N st) (l ++ p :: l2))).
      { induction l as [|x l IH]; cbn; intros S.
        - inversion S as [|? ? S1 S2]; subst. inversion S1 as [|? ? S3 S4]; subst. rewrite Forall_forall in S2, S4.
          split; [intros a []|]. split; [apply S2; left; reflexivity|]. split; [intros a Ha; apply S4; apply in_map; exact Ha|].
          constructor; [exact S3|]. apply Forall_forall. intros k Hk. apply S2. right. exact Hk.
        - inversion S as [|? ? S1 S2]; subst. destruct (IH S1) as (A1 & A2 & A3 & A4). rewrite Forall_forall in S2.
          split; [|split; [exact A2|split; [exact A3|]]].
          + intros a [<-|Ha]; [apply S2; apply in_or_app; right; left; reflexivity|auto].
          + constructor; [exact A4|]. apply Forall_forall. intros k Hk. apply S2. rewrite map_app in Hk. apply in_app_or in Hk.
            apply in_or_app. destruct Hk as [Hk|[Hk|Hk]]; [left; exact Hk|right; left; exact Hk|right; right; right; exact Hk]. }
      destruct (K l1 SS) as (A1 & A2 & A3 & A4). split; [exact A2|].
      assert (B : forall a, In a (l1 ++ p :: l2) -> a = p \/ pn_idx N st a < pn_idx N st p \/ pn_idx N st n < pn_idx N st a).
      { intros a Ha. apply in_app_or in Ha. destruct Ha as [Ha|[Ha|Ha]]; [right; left; apply A1; exact Ha|left; auto|right; right; apply A3; exact Ha]. }
      split; [|split; [|split; [|exact A4]]].
      - intros a Ha. destruct (B a Ha) as [->|[H|H]]; lia.
      - intros a Ha. destruct (B a Ha) as [->|[H|H]]; lia.
      - intros a Ha NE. destruct (B a Ha) as [->|[H|H]]; [congruence|lia|lia].
    Qed.

    Lemma finish_fusion st1 L : effect_before st st1 l1 p n l2 L ->
      exists st', update_indices N (length l1) 1 st1 = Some st' /\
        list_index p (pn_layers N st') = Some (length l1) /\ effect_after st st' l1 p n l2 L.
    Proof.
      intros [EF EI ED]. pose proof pair_facts as (ND & NN & NP & PN). pose proof pair_ids as (I1 & I2 & I3 & I4 & I5).
      pose proof (ef_layers _ _ _ _ _ _ _ EF) as EL1.
      assert (EM : map (pn_idx N st1) (l1 ++ p :: l2) = map (pn_idx N st) (l1 ++ p :: l2)) by (apply map_ext; intros; apply EI).
      destruct (update_indices_spec N (length l1) st1 p) as (st' & EU & SB & R1 & R2 & R3).
      - rewrite EL1. rewrite nth_error_app2 by lia. rewrite Nat.sub_diag. reflexivity.
      - destruct pair_hd as [l1' ->]. cbn. lia.
      - rewrite EL1. exact ND.
      - rewrite EL1, EM. exact I5.
      - rewrite EL1. intros o Ho. rewrite !EI. destruct (I3 o Ho); lia.
      - rewrite EL1. intros k Hk. rewrite ED in Hk. destruct (Nat.eqb_spec k (pn_idx N st n)) as [|NEk]; [congruence|].
        destruct (Nat.eqb_spec k (pn_idx N st p)) as [Ek|NEk2].
        + exists p. rewrite EI. split; [apply in_or_app; right; left; reflexivity|exact Ek].
        + destruct (pv_keys inp st PV k Hk) as (o & Ho & Eo). exists o. rewrite EI. split; [|exact Eo].
          rewrite EL in Ho. apply in_app_or in Ho. apply in_or_app. destruct Ho as [Ho|[Ho|[Ho|Ho]]]; auto; [right; left; exact Ho|subst; congruence|right; right; exact Ho].
      - exists st'. split; [exact EU|]. destruct SB as (S1 & S2 & S3 & S4 & S5 & S6 & S7 & S8).
        rewrite EL1 in *. split; [rewrite S1; apply list_index_split; exact NP|].
        assert (SV : forall a, saved_in N st1 a = dget (pn_dict N st1) (pn_idx N st a)) by (intros a; unfold saved_in; rewrite EI; reflexivity).
        assert (PI : In p (l1 ++ p :: l2)) by (apply in_or_app; right; left; reflexivity).
        constructor.
        + destruct EF. constructor; try rewrite S2; try rewrite S3; try rewrite S4; try rewrite S5; try rewrite S6; try rewrite S7; try rewrite S8; auto.
        + destruct (R1 p PI) as [_ Rp]. rewrite Rp, SV, ED.
          destruct (Nat.eqb_spec (pn_idx N st p) (pn_idx N st n)); [lia|]. rewrite Nat.eqb_refl. reflexivity.
        + intros a Ha NE. destruct (R1 a Ha) as [_ Ra]. rewrite Ra, SV, ED.
          destruct (Nat.eqb_spec (pn_idx N st a) (pn_idx N st n)) as [E|_]; [exfalso; exact (I2 a Ha E)|].
          destruct (Nat.eqb_spec (pn_idx N st a) (pn_idx N st p)) as [E|_]; [exfalso; exact (I4 a Ha NE E)|]. reflexivity.
        + rewrite S1. exact R3.
        + rewrite S1. exact R2.
    Qed.

    (** ** The two functions of the code *)
    Lemma next_n_nodup : NoDup (pn_next N st n) /\ ~ In n (pn_next N st n) /\ ~ In p (pn_next N st n).
    Proof.
      pose proof (sp_linked N _ inp SP) as HL. pose proof (sp_acyclic N _ inp SP) as [rank HA].
      pose proof (sp_no_repeat N _ inp SP) as HR. cbn in *.
      assert (Rpn : rank p < rank n) by (apply HA; [exact pair_p_in|rewrite EN; left; reflexivity]).
      split; [|split].
      - apply (NoDup_count_occ Nat.eq_dec). intros c. destruct (in_dec Nat.eq_dec c (pn_next N st n)) as [Hc|Hc].
        + assert (Hcl : In c (pn_layers N st)) by (apply (links_closed g HL n c pair_n_in); left; exact Hc).
          pose proof (links_symmetric g HL n c pair_n_in Hcl) as E. cbn in E. rewrite E.
          apply (NoDup_count_occ Nat.eq_dec). apply HR. exact Hcl.
        + rewrite (proj1 (count_occ_not_In Nat.eq_dec _ _) Hc). lia.
      - intros H. specialize (HA n n pair_n_in H). lia.
      - intros H. specialize (HA n p pair_n_in H). lia.
    Qed.
    Lemma prev_other c : In c (l1 ++ p :: l2) -> ~ In c (pn_next N st n) -> replace_one n p (pn_prev N st c) = pn_prev N st c.
    Proof.
      intros Hc Hn. apply replace_one_id. intros H. apply Hn.
      apply (linked_In g n c (sp_linked N _ inp SP) pair_n_in (pair_in c Hc)). exact H.
    Qed.

    Lemma update_next_effect st1 : pn_next N st1 p = [] -> pn_next N st1 n = pn_next N st n ->
      (forall c, pn_prev N st1 c = pn_prev N st c) ->
      let st2 := update_next_layers N n p st1 in
      pn_next N st2 p = pn_next N st n /\ (forall a, a <> p -> pn_next N st2 a = pn_next N st1 a) /\
      (forall c, In c (l1 ++ p :: l2) -> pn_prev N st2 c = replace_one n p (pn_prev N st c)) /\ pn_prev N st2 n = pn_prev N st n /\
      pn_layers N st2 = pn_layers N st1 /\ pn_idx N st2 = pn_idx N st1 /\ pn_path N st2 = pn_path N st1 /\
      pn_str N st2 = pn_str N st1 /\ pn_layer N st2 = pn_layer N st1 /\ pn_dict N st2 = pn_dict N st1 /\
      pn_max N st2 = pn_max N st1 /\ pn_last N st2 = pn_last N st1.
    Proof.
      intros E1 E2 E3. pose proof next_n_nodup as (D1 & D2 & D3).
      pose proof (update_next_loop N n p (pn_next N st1 n) st1) as K. cbv zeta in K.
      change (fold_left _ (pn_next N st1 n) st1) with (update_next_layers N n p st1) in K.
      destruct K as (H1 & H2 & H3 & H4).
      { rewrite E1, E2. exact D1. }
      cbv zeta. split; [rewrite H1, E1, E2; reflexivity|]. split; [exact H2|].
      split; [|split; [rewrite H3, E2, E3; apply memb_false in D2; rewrite D2; reflexivity|exact H4]]. intros c Hc. rewrite H3, E2, E3.
      destruct (memb c (pn_next N st n)) eqn:M; [reflexivity|]. apply memb_false in M. symmetry. apply prev_other; assumption.
    Qed.

    Lemma update_dict_effect st1 : pn_idx N st1 = pn_idx N st -> pn_dict N st1 = pn_dict N st ->
      forall k, dget (pn_dict N (update_dict_cst N n p st1)) k =
        if Nat.eqb k (pn_idx N st n) then None
        else if Nat.eqb k (pn_idx N st p) then dget (pn_dict N st) (pn_idx N st n) else dget (pn_dict N st) k.
    Proof.
      intros E1 E2 k. pose proof pair_p_unsaved as PU. unfold saved_in in PU. pose proof pair_ids as (I1 & _).
      unfold update_dict_cst. rewrite E1, E2. destruct (dget (pn_dict N st) (pn_idx N st n)) as [c|] eqn:E.
      - cbn [set_dict set_str pn_dict]. rewrite E2, dget_dpop, dget_dset. reflexivity.
      - cbn [set_dict set_str pn_dict]. rewrite E2. destruct (Nat.eqb_spec k (pn_idx N st n)) as [->|]; [exact E|].
        destruct (Nat.eqb_spec k (pn_idx N st p)) as [->|]; [exact PU|reflexivity].
    Qed.
    Lemma update_dict_rest st1 : let st2 := update_dict_cst N n p st1 in
      pn_layers N st2 = pn_layers N st1 /\ pn_idx N st2 = pn_idx N st1 /\ pn_prev N st2 = pn_prev N st1 /\
      pn_next N st2 = pn_next N st1 /\ pn_path N st2 = pn_path N st1 /\ pn_str N st2 = put (pn_str N st1) p (pn_str N st1 n) /\
      pn_layer N st2 = pn_layer N st1 /\ pn_max N st2 = pn_max N st1 /\ pn_last N st2 = pn_last N st1.
    Proof. unfold update_dict_cst. destruct (dget (pn_dict N st1) (pn_idx N st1 n)); repeat split; reflexivity. Qed.

    Lemma pop_n : list_pop (S (length l1)) (l1 ++ p :: n :: l2) = Some (l1 ++ p :: l2).
    Proof.
      replace (S (length l1)) with (length (l1 ++ [p])) by (rewrite app_length; cbn; lia).
      replace (l1 ++ p :: n :: l2) with ((l1 ++ [p]) ++ n :: l2) by (rewrite <- app_assoc; reflexivity).
      rewrite list_pop_split, <- app_assoc. reflexivity.
    Qed.
    Lemma nth_n : nth_error (l1 ++ p :: n :: l2) (S (length l1)) = Some n.
    Proof. rewrite nth_error_app2 by lia. replace (S (length l1) - length l1) with 1 by lia. reflexivity. Qed.
    Lemma nth_p : nth_error (l1 ++ p :: n :: l2) (length l1) = Some p.
    Proof. rewrite nth_error_app2 by lia. rewrite Nat.sub_diag. reflexivity. Qed.

    Lemma fuse_activation_effect : exists st',
      fuse_activation N st (S (length l1)) = Some (st', length l1) /\
      effect_after st st' l1 p n l2 (mkLayer N (kind_of N st p) (act_of N st n)).
    Proof.
      pose proof pair_facts as (ND & NN & NP & PN).
      unfold fuse_activation. rewrite EL, nth_n. cbn [bind]. rewrite EP. cbn [hd_error bind].
      set (L := mkLayer N (kind_of N st p) (act_of N st n)).
      set (st1 := set_layer N st p L).
      set (st2 := update_dict_cst N n p st1).
      destruct (update_dict_rest st1) as (U1 & U2 & U3 & U4 & U5 & U6 & U7 & U8 & U9). fold st2 in U1, U2, U3, U4, U5, U6, U7, U8, U9.
      rewrite U4. cbn [st1 set_layer pn_next]. rewrite EN, list_remove_head. cbn [bind].
      set (st3 := set_next N st2 p []).
      destruct (update_next_effect st3) as (W1 & W2 & W3 & W3' & W4 & W5 & W6 & W7 & W8 & W9 & W10 & W11).
      { cbn. apply put_same. }
      { cbn. rewrite put_other by congruence. rewrite U4. reflexivity. }
      { intros c. cbn. rewrite U3. reflexivity. }
      set (st4 := update_next_layers N n p st3) in *.
      rewrite W4. cbn [st3 set_next pn_layers]. rewrite U1. cbn [st1 set_layer pn_layers]. rewrite EL, pop_n. cbn [bind].
      replace (S (length l1) - 1) with (length l1) by lia.
      destruct (finish_fusion (set_layers N st4 (l1 ++ p :: l2)) L) as (st' & E1 & E2 & E3).
      - constructor; [constructor| |]; cbn [set_layers pn_layers pn_prev pn_next pn_path pn_str pn_layer pn_max pn_last pn_idx pn_dict].
        + reflexivity.
        + exact W3.
        + exact W3'.
        + exact W1.
        + intros a Ha. rewrite (W2 a Ha). cbn. rewrite put_other by exact Ha. rewrite U4. reflexivity.
        + intros a. rewrite W6. cbn. rewrite U5. reflexivity.
        + rewrite W7. cbn. rewrite U6, put_same. reflexivity.
        + intros a Ha. rewrite W7. cbn. rewrite U6, put_other by exact Ha. reflexivity.
        + rewrite W8. cbn. rewrite U7. cbn. apply put_same.
        + intros a Ha. rewrite W8. cbn. rewrite U7. cbn. apply put_other. exact Ha.
        + rewrite W10. cbn. rewrite U8. reflexivity.
        + rewrite W11. cbn. rewrite U9. reflexivity.
        + intros a. rewrite W5. cbn. rewrite U2. reflexivity.
        + intros k. rewrite W9. cbn [st3 set_next pn_dict]. apply update_dict_effect; reflexivity.
      - rewrite E1. cbn [bind]. rewrite E2. cbn [bind]. exists st'. split; [reflexivity|exact E3].
    Qed.

    Lemma fuse_conv_bn_effect impl c w b C H W scale mean var bias eps :
      kind_of N st p = KConv N impl c w b -> kind_of N st n = KBatchNorm N C H W scale mean var bias eps ->
      exists st', fuse_conv_bn N st (S (length l1)) = Some (st', length l1) /\
      effect_after st st' l1 p n l2
        (mkLayer N (KConv N impl c (fused_weights N c w scale var eps) (fused_biases N c b scale mean var bias eps)) (act_of N st n)).
    Proof.
      intros KP KN. pose proof pair_facts as (ND & NN & NP & PN).
      unfold fuse_conv_bn. rewrite EL, nth_n. cbn [bind]. replace (S (length l1) - 1) with (length l1) by lia.
      rewrite nth_p. cbn [bind]. rewrite KP, KN.
      set (L := mkLayer N (KConv N impl c (fused_weights N c w scale var eps) (fused_biases N c b scale mean var bias eps)) (act_of N st n)).
      set (st1 := set_layer N st p L). cbn [st1 set_layer pn_next]. rewrite EN, list_remove_head. cbn [bind].
      set (st2 := set_next N st1 p []).
      destruct (update_next_effect st2) as (W1 & W2 & W3 & W3' & W4 & W5 & W6 & W7 & W8 & W9 & W10 & W11).
      { cbn. apply put_same. }
      { cbn. rewrite put_other by congruence. reflexivity. }
      { intros c0. reflexivity. }
      set (st3 := update_next_layers N n p st2) in *.
      set (st4 := update_dict_cst N n p st3).
      destruct (update_dict_rest st3) as (U1 & U2 & U3 & U4 & U5 & U6 & U7 & U8 & U9). fold st4 in U1, U2, U3, U4, U5, U6, U7, U8, U9.
      rewrite U1, W4. cbn [st2 st1 set_next set_layer pn_layers]. rewrite EL, pop_n. cbn [bind].
      destruct (finish_fusion (set_layers N st4 (l1 ++ p :: l2)) L) as (st' & E1 & E2 & E3).
      - constructor; [constructor| |]; cbn [set_layers pn_layers pn_prev pn_next pn_path pn_str pn_layer pn_max pn_last pn_idx pn_dict].
        + reflexivity.
        + intros x Hx. rewrite U3. apply W3. exact Hx.
        + rewrite U3. exact W3'.
        + rewrite U4. exact W1.
        + intros a Ha. rewrite U4, (W2 a Ha). cbn. rewrite put_other by exact Ha. reflexivity.
        + intros a. rewrite U5, W6. reflexivity.
        + rewrite U6, put_same, W7. reflexivity.
        + intros a Ha. rewrite U6, put_other, W7 by exact Ha. reflexivity.
        + rewrite U7, W8. cbn. apply put_same.
        + intros a Ha. rewrite U7, W8. cbn. apply put_other. exact Ha.
        + rewrite U8, W10. reflexivity.
        + rewrite U9, W11. reflexivity.
        + intros a. rewrite U2, W5. reflexivity.
        + intros k. apply update_dict_effect; [rewrite W5|rewrite W9]; reflexivity.
      - rewrite E1. cbn [bind]. rewrite E2. cbn [bind]. exists st'. split; [reflexivity|exact E3].
    Qed.

    (** ** The invariant *)
    Context st' (L : layer N).
    Hypothesis EA : effect_after st st' l1 p n l2 L.
    Notation EF := (ea_effect _ _ _ _ _ _ _ EA).
    Notation s := (schedule_of N st).
    Notation s' := (schedule_of N st').
    Notation g' := (graph_of N st').

    Lemma p_nonconstant : is_constant_layer N (kind_of N st p) = false /\ pn_prev N st p <> [].
    Proof.
      pose proof (sp_single N _ inp SP) as (_ & _ & H3 & H4). cbn in *.
      pose proof (sp_constant_sources N _ inp SP) as HC. unfold constants_are_sources in HC. cbn in HC.
      assert (NC : is_constant_layer N (kind_of N st n) = false).
      { destruct (is_constant_layer N (kind_of N st n)) eqn:E; [|reflexivity]. rewrite (HC n pair_n_in E) in EP. discriminate. }
      assert (NN : n <> inp) by (intros Hn; rewrite <- Hn in H3; rewrite EP in H3; discriminate).
      assert (PC : is_constant_layer N (kind_of N st p) = false).
      { destruct (H4 n pair_n_in NN NC) as (x & Hx & Ex). rewrite EP in Hx. destruct Hx as [<-|[]]. exact Ex. }
      split; [exact PC|]. destruct (H4 p pair_p_in NI PC) as (x & Hx & _). destruct (pn_prev N st p); [destruct Hx|discriminate].
    Qed.
    Lemma n_not_input : n <> inp.
    Proof.
      pose proof (sp_single N _ inp SP) as (_ & _ & H3 & _). cbn in *. intros Hn. rewrite <- Hn in H3. rewrite EP in H3. discriminate.
    Qed.

    Hypothesis AL : accepts N L (map (md_size N (model_of N st)) (pn_prev N st p)).
    Hypothesis SL : out_size N (lkind N L) = out_size N (kind_of N st p).
    Hypothesis SN : out_size N (kind_of N st n) = out_size N (kind_of N st p).
    Hypothesis FL : forall cl C H W, lkind N L <> KFlatten N cl C H W.

    Lemma is_fused : fused g g' l1 p n l2.
    Proof.
      constructor; cbn.
      - exact EL.
      - exact (ef_layers _ _ _ _ _ _ _ EF).
      - intros c Hc. rewrite (ef_layers _ _ _ _ _ _ _ EF) in Hc. exact (ef_prev _ _ _ _ _ _ _ EF c Hc).
      - exact (ef_next _ _ _ _ _ _ _ EF).
      - intros a _. exact (ef_next_o _ _ _ _ _ _ _ EF a).
      - intros a _. unfold kind_of. destruct (Nat.eq_dec a p) as [->|NE].
        + rewrite (ef_layer _ _ _ _ _ _ _ EF). destruct p_nonconstant as [PC _]. unfold kind_of in PC. rewrite PC.
          destruct AL as (_ & B). destruct (lkind N L); try reflexivity. destruct B.
        + rewrite (ef_layer_o _ _ _ _ _ _ _ EF a NE). reflexivity.
    Qed.
    Lemma kind_other a : a <> p -> kind_of N st' a = kind_of N st a.
    Proof. intros H. unfold kind_of. rewrite (ef_layer_o _ _ _ _ _ _ _ EF a H). reflexivity. Qed.
    Lemma kind_p : kind_of N st' p = lkind N L.
    Proof. unfold kind_of. rewrite (ef_layer _ _ _ _ _ _ _ EF). reflexivity. Qed.
    Lemma size_other a : a <> p -> md_size N (model_of N st') a = md_size N (model_of N st) a.
    Proof. intros H. unfold md_size, lk. cbn. rewrite (ef_layer_o _ _ _ _ _ _ _ EF a H). reflexivity. Qed.
    Lemma size_p : md_size N (model_of N st') p = md_size N (model_of N st) n.
    Proof.
      unfold md_size, lk. cbn. rewrite (ef_layer _ _ _ _ _ _ _ EF). unfold kind_of in SN. rewrite SL, SN. reflexivity.
    Qed.
    Lemma layers'_in a : In a (pn_layers N st') <-> In a (l1 ++ p :: l2).
    Proof. rewrite (ef_layers _ _ _ _ _ _ _ EF). reflexivity. Qed.
    Lemma map_prev {A} (f f' : nat -> A) c : In c (l1 ++ p :: l2) -> (forall a, a <> p -> f' a = f a) -> f' p = f n ->
      map f' (pn_prev N st' c) = map f (pn_prev N st c).
    Proof.
      intros Hc H1 H2. rewrite (ef_prev _ _ _ _ _ _ _ EF c Hc). unfold replace_one. rewrite map_map. apply map_ext_in.
      intros a Ha. destruct (Nat.eqb_spec a n) as [E|NE]; [rewrite E; exact H2|]. apply H1. intros E. subst a.
      refine (not_both g g' l1 p n l2 is_fused (sp_linked N _ inp SP) EN c _ Ha). cbn. apply layers'_in. exact Hc.
    Qed.

    Lemma fused_supported : supported N (model_of N st') inp.
    Proof.
      pose proof is_fused as FU. pose proof SP as S0. destruct S0 as [A1 A2 A3 A4 A5 A6 A7 A8 A9].
      constructor; cbn [model_of md_graph].
      - exact (fused_linked g g' l1 p n l2 FU A1 A2 EP EN).
      - exact (fused_acyclic g g' l1 p n l2 FU A1 A2 EN).
      - exact (fused_no_repeat g g' l1 p n l2 FU A1 A3 EP EN).
      - intros a Ha. unfold lk, kind_of. cbn. unfold kind_of. destruct (lkind N (pn_layer N st' a)); cbn; split; intros HH;
          first [discriminate HH|destruct HH as (? & HH); discriminate HH|eexists; reflexivity|reflexivity].
      - exact (fused_constant_sources g g' l1 p n l2 FU A1 A5).
      - exact (fused_single_input g g' l1 p n l2 FU A1 EP EN inp A5 A6).
      - unfold lk in *. cbn in *. rewrite (ef_layer_o _ _ _ _ _ _ _ EF inp) by congruence. exact A7.
      - intros c Hc Hp. cbn in *. apply layers'_in in Hc.
        rewrite (map_prev (md_size N (model_of N st)) _ c Hc size_other size_p).
        destruct (Nat.eq_dec c p) as [->|NE].
        + rewrite (ef_layer _ _ _ _ _ _ _ EF). exact AL.
        + rewrite (ef_layer_o _ _ _ _ _ _ _ EF c NE). apply A8; [apply pair_in; exact Hc|]. intros E. apply Hp.
          rewrite (ef_prev _ _ _ _ _ _ _ EF c Hc), E. reflexivity.
      - intros c a cl C H W Hc EK Ep. cbn in *. unfold lk in EK. cbn in EK.
        destruct (Nat.eq_dec c p) as [->|NE].
        + exfalso. rewrite (ef_layer _ _ _ _ _ _ _ EF) in EK. exact (FL cl C H W EK).
        + rewrite (ef_layer_o _ _ _ _ _ _ _ EF c NE) in EK. apply layers'_in in Hc.
          destruct (prev'_single g g' l1 p n l2 FU A1 EN c a) as [[Ea Epc]|[NEa Epc]]; [cbn; apply layers'_in; exact Hc|exact Ep| |].
          * subst a. rewrite (ef_next _ _ _ _ _ _ _ EF). apply (A9 c n cl C H W (pair_in c Hc)); assumption.
          * rewrite (ef_next_o _ _ _ _ _ _ _ EF a NEa). apply (A9 c a cl C H W (pair_in c Hc)); assumption.
    Qed.

    Lemma fused_pinv : pinv inp st'.
    Proof.
      pose proof is_fused as FU. pose proof SP as S0. destruct S0 as [A1 A2 A3 A4 A5 A6 A7 A8 A9].
      assert (RN' : runnable g' s').
      { apply (fused_runnable g g' l1 p n l2 FU A1 A2 EP EN s s' (pv_runnable inp st PV)).
        - exact EL.
        - cbn. apply (ef_layers _ _ _ _ _ _ _ EF).
        - intros a Ha. cbn in Ha. rewrite (sched_path N st' a Ha), (sched_path N st a) by (apply pair_in, layers'_in, Ha).
          rewrite (ef_path _ _ _ _ _ _ _ EF). reflexivity.
        - intros a Ha NE. cbn in Ha. rewrite (sched_saved N st' a Ha), (sched_saved N st a) by (apply pair_in, layers'_in, Ha).
          apply (ea_saved_o _ _ _ _ _ _ _ EA); [apply layers'_in; exact Ha|exact NE].
        - rewrite (sched_saved N st' p), (sched_saved N st n); [apply (ea_saved _ _ _ _ _ _ _ EA)|exact pair_n_in|].
          apply layers'_in. apply in_or_app. right. left. reflexivity.
        - cbn. apply (ef_max _ _ _ _ _ _ _ EF). }
      constructor.
      - exact fused_supported.
      - exact RN'.
      - intros a Ha. pose proof (proj1 (layers'_in a) Ha) as Ha1. rewrite (sched_out N st' a Ha). rewrite (ef_path _ _ _ _ _ _ _ EF).
        destruct (Nat.eq_dec a p) as [->|NE].
        + rewrite (ea_saved _ _ _ _ _ _ _ EA), (ef_str _ _ _ _ _ _ _ EF).
          pose proof (pv_str inp st PV n pair_n_in) as E. rewrite (sched_out N st n pair_n_in) in E. injection E as E.
          destruct (rn_inplace _ _ (pv_runnable inp st PV) n p pair_n_in EP EN) as (k & E1 & E2).
          rewrite (sched_path N st p pair_p_in) in E1. rewrite (sched_path N st n pair_n_in) in E2.
          assert (pn_path N st p = pn_path N st n) as -> by congruence. f_equal. exact E.
        + rewrite (ea_saved_o _ _ _ _ _ _ _ EA a Ha1 NE), (ef_str_o _ _ _ _ _ _ _ EF a NE).
          pose proof (pv_str inp st PV a (pair_in a Ha1)) as E. rewrite (sched_out N st a (pair_in a Ha1)) in E. exact E.
      - apply (fused_chains g g' l1 p n l2 FU A1 EN inp NI n_not_input). exact (pv_chains inp st PV).
      - exact (ea_ids _ _ _ _ _ _ _ EA).
      - exact (ea_keys _ _ _ _ _ _ _ EA).
    Qed.

    (** ** The values *)
    Hypothesis ML : forall xs, length xs = length (pn_prev N st p) -> meaning N ninf q L xs = meaning N ninf q (pn_layer N st n) [meaning N ninf q (pn_layer N st p) xs].
    Hypothesis CL : pn_last N st = true -> l2 = [] -> out_channels N (lkind N L) = out_channels N (kind_of N st n).

    Lemma fused_evaluates x val : evaluates (documented_net N ninf q (model_of N st) s) x val ->
      evaluates (documented_net N ninf q (model_of N st') s') x (put val p (val n)).
    Proof.
      intros EV c Hc. cbn in Hc. pose proof (proj1 (layers'_in c) Hc) as Hc1. pose proof (pair_in c Hc1) as Hc2.
      assert (EQpre : md_pre N (model_of N st') s' = md_pre N (model_of N st) s).
      { unfold md_pre, lk. cbn. rewrite (ef_layers _ _ _ _ _ _ _ EF), EL. destruct pair_hd as [l1' ->]. cbn.
        rewrite (ef_layer_o _ _ _ _ _ _ _ EF inp) by congruence. rewrite (ef_last _ _ _ _ _ _ _ EF). reflexivity. }
      assert (EQin : forall c, In c (l1 ++ p :: l2) ->
        match pn_prev N st' c with [] => [md_pre N (model_of N st') s' x] | ps => map (put val p (val n)) ps end =
        match pn_prev N st c with [] => [md_pre N (model_of N st) s x] | ps => map val ps end).
      { intros d Hd. assert (E : map (put val p (val n)) (pn_prev N st' d) = map val (pn_prev N st d)).
        { apply (map_prev val _ d Hd); [intros a Ha; apply put_other; exact Ha|apply put_same]. }
        rewrite EQpre. destruct (pn_prev N st' d), (pn_prev N st d); try discriminate E; [reflexivity|exact E]. }
      cbn [documented_net LayerKinds.documented_net net_with net_graph forward pre model_of md_graph graph_of previous_layer md_layer] in *.
      rewrite (EQin c Hc1). destruct (Nat.eq_dec c p) as [->|NE].
      - rewrite put_same. rewrite (ef_layer _ _ _ _ _ _ _ EF). rewrite ML.
        2:{ destruct p_nonconstant as [_ PNE]. destruct (pn_prev N st p) as [|a l] eqn:Epp; [congruence|]. rewrite map_length. reflexivity. }
        pose proof (EV n pair_n_in) as E1. cbn in E1. rewrite EP in E1. cbn in E1. rewrite E1. f_equal. f_equal.
        exact (EV p pair_p_in).
      - rewrite put_other by exact NE. rewrite (ef_layer_o _ _ _ _ _ _ _ EF c NE). exact (EV c Hc2).
    Qed.

    Lemma fused_output val : md_post N (model_of N st') s' (put val p (val n) (last (order s') O)) =
      md_post N (model_of N st) s (val (last (order s) O)).
    Proof.
      cbn [schedule_of order]. unfold md_post, lk. cbn [schedule_of order model_of md_last md_layer].
      rewrite (ef_layers _ _ _ _ _ _ _ EF), EL, (ef_last _ _ _ _ _ _ _ EF). pose proof pair_facts as (ND & _ & _ & PN).
      destruct l2 as [|y l2'] eqn:E2.
      - rewrite last_last. replace (l1 ++ [p; n]) with ((l1 ++ [p]) ++ [n]) by (rewrite <- app_assoc; reflexivity). rewrite last_last.
        rewrite put_same, (ef_layer _ _ _ _ _ _ _ EF). destruct (pn_last N st) eqn:ELast.
        + rewrite (CL eq_refl eq_refl). reflexivity.
        + destruct (out_channels N (lkind N L)) as [[[? ?] ?]|], (out_channels N (lkind N (pn_layer N st n))) as [[[? ?] ?]|]; reflexivity.
      - rewrite <- E2 in *. assert (LST : last (l1 ++ p :: l2) O = last l2 O /\ last (l1 ++ p :: n :: l2) O = last l2 O).
        { rewrite E2. clear. split.
          - replace (l1 ++ p :: y :: l2') with ((l1 ++ [p]) ++ y :: l2') by (rewrite <- app_assoc; reflexivity).
            induction (l1 ++ [p]) as [|a l IH]; [reflexivity|]. cbn [app last]. rewrite IH. destruct (l ++ y :: l2') eqn:E; [destruct l; discriminate|reflexivity].
          - replace (l1 ++ p :: n :: y :: l2') with ((l1 ++ [p; n]) ++ y :: l2') by (rewrite <- app_assoc; reflexivity).
            induction (l1 ++ [p; n]) as [|a l IH]; [reflexivity|]. cbn [app last]. rewrite IH. destruct (l ++ y :: l2') eqn:E; [destruct l; discriminate|reflexivity]. }
        destruct LST as [-> ->].
        assert (NEp : last l2 O <> p).
        { apply NoDup_remove in ND as [_ ND]. intros E. apply ND. apply in_or_app. right. rewrite <- E.
          rewrite (app_removelast_last O (l := l2)) at 2 by (rewrite E2; discriminate). apply in_or_app. right. left. reflexivity. }
        rewrite put_other by exact NEp. rewrite (ef_layer_o _ _ _ _ _ _ _ EF _ NEp). reflexivity.
    Qed.
  End Pair.
End Proofs.
