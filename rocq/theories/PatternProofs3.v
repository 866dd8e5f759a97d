(** * The pass keeps the invariant and the value of the network. *)
From Coq Require Import ZArith List Lia Bool QArith Sorted Permutation.
Import ListNotations.
From Verif Require Import CMem Tensor Num Activation Conv Graph GraphSpec GraphProofs GraphProofs4 Net NetProofs LayerKinds
  FuseProofs Pattern PatternProofs PatternProofs2 ModelProofs FuseValues FusionSafe PatternTerm.
From Verif Require Broadcast.
Open Scope nat_scope.

Section Proofs.
  Context (N : num) (ninf : T N) (q : Q -> T N).
  Notation V := (T N).
  Notation pnet := (pnet N).
  Implicit Types st : pnet.

  Lemma is_linear_eq (a : activation N) : is_linear N a = true <-> a = LinearAct.
  Proof. destruct a; cbn; split; congruence. Qed.

  Section One.
    Context (inp : nat) st (l1 : list nat) (p n : nat) (l2 : list nat) st' (L : layer N).
    Hypothesis PV : pinv N inp st.
    Hypothesis EL : pn_layers N st = l1 ++ p :: n :: l2.
    Hypothesis EP : pn_prev N st n = [p].
    Hypothesis EN : pn_next N st p = [n].
    Hypothesis NI : p <> inp.
    Hypothesis EA : effect_after N st st' l1 p n l2 L.
    Hypothesis FS : fusion_safe N (model_of N st) inp.
    Hypothesis AL : accepts N L (map (md_size N (model_of N st)) (pn_prev N st p)).
    Hypothesis SL : out_size N (lkind N L) = out_size N (kind_of N st p).
    Hypothesis FL : forall cl C H W, lkind N L <> KFlatten N cl C H W.
    Hypothesis HA : lact N L = act_of N st n.
    Hypothesis HK : is_activation_layer N (lkind N L) = false.
    Hypothesis HM : is_multiply N (lkind N L) = is_multiply N (kind_of N st p).
    Hypothesis HB : forall C H W sc me va bi eps, lkind N L = KBatchNorm N C H W sc me va bi eps -> kind_of N st p = lkind N L.
    Hypothesis HI : lact N L = LinearAct -> is_activation_layer N (kind_of N st n) = false /\ field_laws N /\
      out_channels N (lkind N L) = out_channels N (kind_of N st n) /\ (forall a, absorbs N (kind_of N st n) a -> absorbs N (lkind N L) a).
    Notation EF := (ea_effect N _ _ _ _ _ _ _ EA).
    Notation g := (graph_of N st).
    Notation g' := (graph_of N st').

    Lemma FUs : fused g g' l1 p n l2.
    Proof. exact (is_fused N inp st l1 p n l2 PV EL EP NI st' L EA AL SL FL). Qed.
    Lemma in1 c : In c (pn_layers N st') -> In c (pn_layers N st).
    Proof.
      intros H. apply (pair_in N st l1 p n l2 EL). rewrite <- (ef_layers N _ _ _ _ _ _ _ EF). exact H.
    Qed.
    Lemma in2 c : In c (pn_layers N st') -> In c (l1 ++ p :: l2).
    Proof. rewrite (ef_layers N _ _ _ _ _ _ _ EF). auto. Qed.
    Lemma ps c a : In c (pn_layers N st') -> pn_prev N st' c = [a] ->
      (a = p /\ pn_prev N st c = [n]) \/ (a <> p /\ pn_prev N st c = [a]).
    Proof.
      intros Hc E. exact (prev'_single g g' l1 p n l2 FUs (sp_linked N _ inp (pv_supported N inp st PV)) EN c a Hc E).
    Qed.
    Lemma lay_o a : a <> p -> pn_layer N st' a = pn_layer N st a.
    Proof. exact (ef_layer_o N _ _ _ _ _ _ _ EF a). Qed.
    Lemma lay_p : pn_layer N st' p = L.
    Proof. exact (ef_layer N _ _ _ _ _ _ _ EF). Qed.
    Lemma nin : In n (pn_layers N st). Proof. exact (pair_n_in N st l1 p n l2 EL). Qed.
    Lemma pin : In p (pn_layers N st). Proof. exact (pair_p_in N st l1 p n l2 EL). Qed.
    Lemma p_n : p <> n. Proof. apply (pair_facts N inp st l1 p n l2 PV EL). Qed.
    Lemma prev_p_not_n : pn_prev N st p <> [n].
    Proof.
      intros E. pose proof (sp_linked N _ inp (pv_supported N inp st PV)) as HL.
      destruct (sp_acyclic N _ inp (pv_supported N inp st PV)) as [rank HR].
      assert (R1 : rank p < rank n) by (apply HR; [exact pin|cbn; rewrite EN; left; reflexivity]).
      assert (R2 : rank n < rank p).
      { apply HR; [exact nin|]. apply (linked_In g n p HL nin pin). cbn. rewrite E. left. reflexivity. }
      lia.
    Qed.

    Lemma fused_safe : fusion_safe N (model_of N st') inp.
    Proof.
      destruct FS as [F1 F2 F3 F3' F4 F5]. unfold lk in *. cbn in F1, F2, F3, F3', F4, F5.
      constructor; unfold lk; cbn.
      - intros a c Ha Hc Kc Ka La Pc Na.
        assert (Ncp : c <> p) by (intros ->; rewrite lay_p in Kc; congruence). rewrite (lay_o c Ncp) in *.
        destruct (ps c a Hc Pc) as [[-> Pc0]|[Nap Pc0]].
        + rewrite lay_p in *. rewrite (ef_next N _ _ _ _ _ _ _ EF) in Na. destruct (HI La) as (I1 & I2 & I3 & I4).
          split; [exact NI|]. apply I4. rewrite HA in La.
          apply (F1 n c nin (in1 c Hc) Kc I1 La Pc0 Na).
        + rewrite (lay_o a Nap) in *. rewrite (ef_next_o N _ _ _ _ _ _ _ EF a Nap) in Na.
          apply (F1 a c (in1 a Ha) (in1 c Hc)); assumption.
      - intros c Hc Kc. assert (Ncp : c <> p) by (intros ->; rewrite lay_p in Kc; congruence). rewrite (lay_o c Ncp) in *.
        apply F2; [apply in1; exact Hc|exact Kc].
      - intros a c C H W sc me va bi eps d Ha Hc Kc Pc La Oa. destruct (ps c a Hc Pc) as [[-> Pc0]|[Nap Pc0]].
        + rewrite lay_p in *. assert (Ncp : c <> p) by (intros ->; exact (prev_p_not_n Pc0)). rewrite (lay_o c Ncp) in *.
          destruct (HI La) as (I1 & I2 & I3 & I4). rewrite I3 in Oa. rewrite HA in La.
          exact (F3 n c C H W sc me va bi eps d nin (in1 c Hc) Kc Pc0 La Oa).
        + rewrite (lay_o a Nap) in *. destruct (Nat.eq_dec c p) as [->|Ncp].
          * rewrite lay_p in Kc. pose proof (HB _ _ _ _ _ _ _ _ Kc) as KB. unfold kind_of in KB. rewrite Kc in KB.
            exact (F3 a p C H W sc me va bi eps d (in1 a Ha) pin KB Pc0 La Oa).
          * rewrite (lay_o c Ncp) in *. exact (F3 a c C H W sc me va bi eps d (in1 a Ha) (in1 c Hc) Kc Pc0 La Oa).
      - intros a c Ha Hc Kc Pc Ka La. destruct (ps c a Hc Pc) as [[-> Pc0]|[Nap Pc0]].
        + rewrite lay_p in La. apply (HI La).
        + rewrite (lay_o a Nap) in *. destruct (Nat.eq_dec c p) as [->|Ncp].
          * rewrite lay_p in Kc. destruct (lkind N L) eqn:KL; try discriminate Kc. pose proof (HB _ _ _ _ _ _ _ _ eq_refl) as KB.
            unfold kind_of in KB. apply (F3' a p (in1 a Ha) pin); [rewrite KB; reflexivity|assumption..].
          * rewrite (lay_o c Ncp) in *. apply (F3' a c (in1 a Ha) (in1 c Hc)); assumption.
      - rewrite (ef_last N _ _ _ _ _ _ _ EF). intros HL c Hc Nc. destruct (Nat.eq_dec c p) as [->|Ncp]; [rewrite lay_p; exact HK|].
        rewrite (lay_o c Ncp). apply F4; [exact HL|apply in1; exact Hc|]. rewrite (ef_next_o N _ _ _ _ _ _ _ EF c Ncp) in Nc. exact Nc.
      - intros a c m Ha Hc Hm Kc Lc Pc Nc La Na Km Pm Ia.
        assert (Ncp : c <> p) by (intros ->; rewrite lay_p in Kc; congruence). rewrite (lay_o c Ncp) in *.
        rewrite (ef_next_o N _ _ _ _ _ _ _ EF c Ncp) in Nc.
        rewrite (ef_prev N _ _ _ _ _ _ _ EF m (in2 m Hm)) in Pm. unfold replace_one in Pm. rewrite map_length in Pm.
        destruct (ps c a Hc Pc) as [[-> Pc0]|[Nap Pc0]].
        + rewrite lay_p in *. rewrite (ef_next N _ _ _ _ _ _ _ EF) in *. rewrite HA in La.
          assert (Nmp : m <> p).
          { intros ->. destruct (next_n_nodup N inp st l1 p n l2 PV EL EN NI) as (_ & _ & X). exact (X Ia). }
          rewrite (lay_o m Nmp) in *.
          exact (F5 n c m nin (in1 c Hc) (in1 m Hm) Kc Lc Pc0 Nc La Na Km Pm Ia).
        + rewrite (lay_o a Nap) in *. rewrite (ef_next_o N _ _ _ _ _ _ _ EF a Nap) in *.
          assert (Km0 : is_multiply N (lkind N (pn_layer N st m)) = true).
          { destruct (Nat.eq_dec m p) as [->|Nmp]; [|rewrite (lay_o m Nmp) in Km; exact Km].
            rewrite lay_p, HM in Km. exact Km. }
          exact (F5 a c m (in1 a Ha) (in1 c Hc) (in1 m Hm) Kc Lc Pc0 Nc La Na Km0 Pm Ia).
    Qed.

    Hypothesis PY : python_safe N (model_of N st).
    Hypothesis HF : forward_applies N (kind_of N st n) = true \/ is_activation_layer N (kind_of N st n) = true -> forward_applies N (lkind N L) = true.
    Hypothesis HP : py_agrees N L.
    Hypothesis HG : pn_last N st = true -> pn_next N st n = [] -> match lkind N L with KGemm _ _ _ _ _ _ _ _ _ _ => False | _ => True end.
    Lemma fused_python : python_safe N (model_of N st').
    Proof.
      destruct PY as [[P1 P2] P3]. unfold lk in *. cbn in P1, P2, P3. constructor; [split|]; unfold lk; cbn.
      - intros c Hc. destruct (Nat.eq_dec c p) as [->|Ncp]; [rewrite lay_p; exact HP|]. rewrite (lay_o c Ncp). apply P1. apply in1. exact Hc.
      - rewrite (ef_last N _ _ _ _ _ _ _ EF). intros HL c Hc Nc. destruct (Nat.eq_dec c p) as [->|Ncp].
        + rewrite lay_p. rewrite (ef_next N _ _ _ _ _ _ _ EF) in Nc. apply HG; assumption.
        + rewrite (lay_o c Ncp). rewrite (ef_next_o N _ _ _ _ _ _ _ EF c Ncp) in Nc. apply P2; [exact HL|apply in1; exact Hc|exact Nc].
      - intros a c Ha Hc Kc Ka La Pc Na.
        assert (Ncp : c <> p) by (intros ->; rewrite lay_p in Kc; congruence). rewrite (lay_o c Ncp) in *.
        destruct (ps c a Hc Pc) as [[-> Pc0]|[Nap Pc0]].
        + rewrite lay_p in *. rewrite (ef_next N _ _ _ _ _ _ _ EF) in Na. apply HF. left. destruct (HI La) as (I1 & _).
          rewrite HA in La. apply (P3 n c nin (in1 c Hc)); assumption.
        + rewrite (lay_o a Nap) in *. rewrite (ef_next_o N _ _ _ _ _ _ _ EF a Nap) in Na.
          apply (P3 a c (in1 a Ha) (in1 c Hc)); assumption.
    Qed.
  End One.

  (** ** One iteration of the matcher *)
  Record keeps (inp : nat) st st' : Prop := {
    kp_pinv : pinv N inp st';
    kp_safe : fusion_safe N (model_of N st') inp;
    kp_python : python_safe N (model_of N st) -> python_safe N (model_of N st');
    kp_value : forall x val, evaluates (documented_net N ninf q (model_of N st) (schedule_of N st)) x val ->
      exists val', evaluates (documented_net N ninf q (model_of N st') (schedule_of N st')) x val' /\
        md_post N (model_of N st') (schedule_of N st') (val' (last (order (schedule_of N st')) O)) =
        md_post N (model_of N st) (schedule_of N st) (val (last (order (schedule_of N st)) O))
  }.
  Lemma keeps_refl inp st : pinv N inp st -> fusion_safe N (model_of N st) inp -> keeps inp st st.
  Proof. intros H1 H2. constructor; auto. intros x val H. exists val. auto. Qed.
  Lemma keeps_trans inp st1 st2 st3 : keeps inp st1 st2 -> keeps inp st2 st3 -> keeps inp st1 st3.
  Proof.
    intros [A1 A2 A3 A4] [B1 B2 B3 B4]. constructor; auto. intros x val H. destruct (A4 x val H) as (v2 & E2 & O2).
    destruct (B4 x v2 E2) as (v3 & E3 & O3). exists v3. split; [exact E3|congruence].
  Qed.

  (** Where the pair sits in the list. *)
  Lemma pair_place inp st i p n : pinv N inp st -> nth_error (pn_layers N st) i = Some n ->
    pn_prev N st n = [p] -> pn_next N st p = [n] -> p <> inp ->
    exists l1 l2, pn_layers N st = l1 ++ p :: n :: l2 /\ i = S (length l1).
  Proof.
    intros PV Hi EP EN NI. pose proof (nth_error_In _ _ Hi) as Hn.
    pose proof (sp_linked N _ inp (pv_supported N inp st PV)) as HL.
    assert (Hp : In p (pn_layers N st)).
    { apply (links_closed _ HL n p Hn). right. cbn. rewrite EP. left. reflexivity. }
    destruct (pv_chains N inp st PV p n Hp Hn EP EN NI) as (l1 & l2 & E). cbn in E. exists l1, l2. split; [exact E|].
    pose proof (ids_distinct _ HL) as ND. cbn in ND. rewrite E in *.
    assert (Hj : nth_error (l1 ++ p :: n :: l2) (S (length l1)) = Some n) by (exact (nth_n inp l1 p n l2 NI)).
    apply (proj1 (NoDup_nth_error _) ND).
    - apply nth_error_Some. rewrite Hi. discriminate.
    - rewrite Hi, Hj. reflexivity.
  Qed.

  Lemma prev_kind inp st n : pinv N inp st -> In n (pn_layers N st) -> pn_prev N st n <> [] ->
    accepts N (pn_layer N st n) (map (md_size N (model_of N st)) (pn_prev N st n)).
  Proof. intros PV Hn Hp. exact (sp_layers N _ inp (pv_supported N inp st PV) n Hn Hp). Qed.

  Lemma fuse_activation_keeps inp st i n : pinv N inp st -> fusion_safe N (model_of N st) inp ->
    nth_error (pn_layers N st) i = Some n -> is_fuse_activation N st n = true ->
    exists st' j p, fuse_activation N st i = Some (st', j) /\ keeps inp st st' /\
      pn_prev N st n = [p] /\ pn_layer N st' p = mkLayer N (kind_of N st p) (act_of N st n) /\
      pn_layer N st' n = pn_layer N st n /\ pn_prev N st' n = pn_prev N st n /\ S (length (pn_layers N st')) = length (pn_layers N st).
  Proof.
    intros PV FS Hi HT. unfold is_fuse_activation in HT. apply andb_prop in HT as [KN HT].
    destruct (pn_prev N st n) as [|p [|? ?]] eqn:EP; try discriminate. apply andb_prop in HT as [HT LN]. apply andb_prop in HT as [KP LP].
    apply negb_true_iff in KP. apply is_linear_eq in LP. apply Nat.eqb_eq in LN.
    pose proof (nth_error_In _ _ Hi) as Hn. pose proof (sp_linked N _ inp (pv_supported N inp st PV)) as HL.
    assert (Hp : In p (pn_layers N st)).
    { apply (links_closed _ HL n p Hn). right. cbn. rewrite EP. left. reflexivity. }
    assert (EN : pn_next N st p = [n]).
    { assert (In n (pn_next N st p)) by (apply (linked_In _ p n HL Hp Hn); cbn; rewrite EP; left; reflexivity).
      destruct (pn_next N st p) as [|a [|? ?]]; try discriminate. destruct H as [->|[]]. reflexivity. }
    destruct (fs_act N _ inp FS p n Hp Hn KN KP LP EP EN) as [NI AB].
    destruct (pair_place inp st i p n PV Hi EP EN NI) as (l1 & l2 & EL & ->).
    destruct (fuse_activation_effect N inp st l1 p n l2 PV EL EP EN NI) as (st' & EQ & EA).
    set (L := mkLayer N (kind_of N st p) (act_of N st n)) in *.
    pose proof (prev_kind inp st n PV Hn ltac:(rewrite EP; discriminate)) as AN. rewrite EP in AN. cbn in AN.
    assert (PP : pn_prev N st p <> []) by (apply (p_nonconstant N inp st l1 p n l2 PV EL EP NI)).
    pose proof (prev_kind inp st p PV Hp PP) as AP.
    destruct AN as (AS & AN'). destruct (lkind N (pn_layer N st n)) eqn:KN'; unfold kind_of in KN; rewrite KN' in KN; try discriminate KN.
    destruct AN' as (SZ & NN). injection SZ as SZ.
    assert (AL : accepts N L (map (md_size N (model_of N st)) (pn_prev N st p))) by (exact (fused_activation_accepts N (pn_layer N st p) (act_of N st n) _ AB AP AS)).
    assert (SL : out_size N (lkind N L) = out_size N (kind_of N st p)) by reflexivity.
    assert (FL : forall cl C H W, lkind N L <> KFlatten N cl C H W).
    { intros cl C H W E. unfold lk in AB. cbn in AB. unfold L in E. cbn in E. unfold kind_of in E. rewrite E in AB. exact AB. }
    assert (SN : out_size N (kind_of N st n) = out_size N (kind_of N st p)) by (unfold kind_of at 1; rewrite KN'; symmetry; exact SZ).
    assert (NLN : act_of N st n <> LinearAct).
    { apply (fs_nonlinear N _ inp FS n Hn). unfold lk. cbn. rewrite KN'. reflexivity. }
    assert (LL : pn_last N st = true -> pn_next N st n <> []).
    { intros E1 E2. pose proof (fs_last N _ inp FS E1 n Hn E2) as X. unfold lk in X. cbn in X. rewrite KN' in X. discriminate X. }
    assert (LL2 : pn_last N st = true -> l2 <> []).
    { intros E1 E2. apply (LL E1). destruct (pn_next N st n) as [|c l] eqn:En; [reflexivity|]. exfalso.
      assert (Hc : In c (pn_layers N st)) by (apply (links_closed _ HL n c Hn); left; cbn; rewrite En; left; reflexivity).
      assert (Hnc : In n (pn_prev N st c)) by (apply (linked_In _ n c HL Hn Hc); cbn; rewrite En; left; reflexivity).
      destruct (in_split c _ Hc) as (la & lb & Es).
      pose proof (rn_topo _ _ (pv_runnable N inp st PV) la c lb Es n Hnc) as Hla.
      pose proof (ids_distinct _ HL) as ND. cbn in ND. rewrite Es in ND.
      assert (EE : la ++ c :: lb = (l1 ++ [p]) ++ [n]) by (rewrite <- Es, EL, E2, <- app_assoc; reflexivity).
      clear -Hla ND EE. destruct lb as [|y lb] using rev_ind.
      - apply app_inj_tail in EE as [_ ->]. apply NoDup_remove in ND as [_ ND]. apply ND. rewrite app_nil_r. exact Hla.
      - replace (la ++ c :: lb ++ [y]) with ((la ++ c :: lb) ++ [y]) in EE, ND by (rewrite <- app_assoc; reflexivity).
        apply app_inj_tail in EE as [_ ->]. apply NoDup_remove in ND as [_ ND]. apply ND. rewrite app_nil_r. apply in_or_app. left. exact Hla. }
    exists st', (length l1), p. split; [exact EQ|]. pose proof (ea_effect N _ _ _ _ _ _ _ EA) as EF.
    split; [|split; [reflexivity|split; [apply (ef_layer N _ _ _ _ _ _ _ EF)|split; [|split; [rewrite <- EP; apply (ef_prev_n N _ _ _ _ _ _ _ EF)|]]]]].
    - constructor.
      + exact (fused_pinv N inp st l1 p n l2 PV EL EP EN NI st' L EA AL SL SN FL).
      + apply (fused_safe inp st l1 p n l2 st' L PV EL EP EN NI EA FS AL SL FL).
        * reflexivity.
        * exact KP.
        * reflexivity.
        * reflexivity.
        * intros E. exfalso. exact (NLN E).
      + intros PY. apply (fused_python inp st l1 p n l2 st' L PV EL EP EN NI EA AL SL FL); try assumption.
        * reflexivity.
        * intros E. exfalso. exact (NLN E).
        * intros _. apply (ps_act N _ PY p n Hp Hn); try assumption. unfold lk. cbn. rewrite KN'. reflexivity.
        * pose proof (ps_act N _ PY p n Hp Hn) as PA. unfold lk in PA. cbn in PA. rewrite KN' in PA. specialize (PA eq_refl KP LP EP EN).
          destruct (ps_supported N _ PY) as [PS _]. specialize (PS p Hp). cbn in PS. unfold L, kind_of.
          destruct (pn_layer N st p) as [k a] eqn:EL'. cbn [lkind] in PA |- *. destruct k; try discriminate PA; exact PS.
        * intros E1 E2. exfalso. exact (LL E1 E2).
      + intros x val EV. exists (put val p (val n)). split.
        * apply (fused_evaluates N ninf q inp st l1 p n l2 PV EL EP EN NI st' L EA AL SL FL); [|exact EV].
          intros xs _. unfold L. replace (pn_layer N st n) with (mkLayer N (KActivation N n0) (act_of N st n)).
          2:{ unfold act_of. rewrite <- KN'. destruct (pn_layer N st n); reflexivity. }
          apply (fused_activation_meaning N ninf q (pn_layer N st p)); assumption.
        * apply (fused_output N inp st l1 p n l2 PV EL st' L EA). intros E1 E2. exfalso. exact (LL2 E1 E2).
    - apply (ef_layer_o N _ _ _ _ _ _ _ EF). intros E. apply (p_n inp st l1 p n l2 PV EL). congruence.
    - rewrite (ef_layers N _ _ _ _ _ _ _ EF), EL, !app_length. cbn. lia.
  Qed.

  Lemma fuse_conv_bn_keeps inp st i n : pinv N inp st -> fusion_safe N (model_of N st) inp ->
    nth_error (pn_layers N st) i = Some n -> is_fuse_conv_bn N st n = true ->
    exists st' j p, fuse_conv_bn N st i = Some (st', j) /\ keeps inp st st' /\
      pn_prev N st n = [p] /\ pn_layer N st' n = pn_layer N st n /\ S (length (pn_layers N st')) = length (pn_layers N st).
  Proof.
    intros PV FS Hi HT. unfold is_fuse_conv_bn in HT. apply andb_prop in HT as [KN HT].
    destruct (pn_prev N st n) as [|p [|? ?]] eqn:EP; try discriminate. apply andb_prop in HT as [HT LP]. apply andb_prop in HT as [KP LN].
    apply is_linear_eq in LP. apply Nat.eqb_eq in LN.
    pose proof (nth_error_In _ _ Hi) as Hn. pose proof (sp_linked N _ inp (pv_supported N inp st PV)) as HL.
    assert (Hp : In p (pn_layers N st)).
    { apply (links_closed _ HL n p Hn). right. cbn. rewrite EP. left. reflexivity. }
    assert (EN : pn_next N st p = [n]).
    { assert (In n (pn_next N st p)) by (apply (linked_In _ p n HL Hp Hn); cbn; rewrite EP; left; reflexivity).
      destruct (pn_next N st p) as [|a [|? ?]]; try discriminate. destruct H as [->|[]]. reflexivity. }
    assert (NI : p <> inp).
    { intros E. subst p. unfold kind_of in KP. destruct (sp_input N _ inp (pv_supported N inp st PV)) as [(C & H & W & E & _)|(m & E)];
        unfold lk in E; cbn in E; rewrite E in KP; discriminate KP. }
    pose proof (fs_bn_field N _ inp FS p n Hp Hn KN EP KP LP) as FD.
    destruct (pair_place inp st i p n PV Hi EP EN NI) as (l1 & l2 & EL & ->).
    destruct (kind_of N st p) as [| | | | | | | | | | | | | |impl c w b| | | | | | | | |] eqn:KPE; try discriminate KP.
    destruct (kind_of N st n) as [| | | | | | |C H W scale mean var bias eps| | | | | | | | | | | | | | | |] eqn:KNE; try discriminate KN.
    destruct (fuse_conv_bn_effect N inp st l1 p n l2 PV EL EP EN NI impl c w b C H W scale mean var bias eps KPE KNE) as (st' & EQ & EA).
    set (L := mkLayer N (KConv N impl c (fused_weights N c w scale var eps) (fused_biases N c b scale mean var bias eps)) (act_of N st n)) in *.
    assert (PP : pn_prev N st p <> []) by (apply (p_nonconstant N inp st l1 p n l2 PV EL EP NI)).
    pose proof (prev_kind inp st p PV Hp PP) as AP.
    pose proof (prev_kind inp st n PV Hn ltac:(rewrite EP; discriminate)) as (AS & _).
    destruct AP as (_ & AP). unfold kind_of in KPE. rewrite KPE in AP. destruct AP as (AI & AC).
    assert (SH : (nf c, oh c, ow c) = (C, H, W)).
    { apply (fs_bn_shape N _ inp FS p n C H W scale mean var bias eps _ Hp Hn KNE EP LP). unfold lk. cbn. rewrite KPE. reflexivity. }
    injection SH as SC SH SW.
    assert (AL : accepts N L (map (md_size N (model_of N st)) (pn_prev N st p))) by (exact (fused_conv_bn_accepts N impl c w b scale mean var bias eps (act_of N st n) _ AS AC AI)).
    assert (SL : out_size N (lkind N L) = out_size N (kind_of N st p)) by (unfold kind_of; rewrite KPE; reflexivity).
    assert (FL : forall cl C H W, lkind N L <> KFlatten N cl C H W) by discriminate.
    assert (SN : out_size N (kind_of N st n) = out_size N (kind_of N st p)).
    { unfold kind_of at 2. rewrite KNE, KPE. cbn. rewrite SC, SH, SW. lia. }
    exists st', (length l1), p. split; [exact EQ|]. pose proof (ea_effect N _ _ _ _ _ _ _ EA) as EF.
    assert (HI : lact N L = LinearAct -> is_activation_layer N (kind_of N st n) = false /\ field_laws N /\
      out_channels N (lkind N L) = out_channels N (kind_of N st n) /\ (forall a, absorbs N (kind_of N st n) a -> absorbs N (lkind N L) a)).
    { intros _. rewrite KNE. cbn. rewrite SC, SH, SW. auto. }
    split; [|split; [reflexivity|split]].
    - constructor.
      + exact (fused_pinv N inp st l1 p n l2 PV EL EP EN NI st' L EA AL SL SN FL).
      + apply (fused_safe inp st l1 p n l2 st' L PV EL EP EN NI EA FS AL SL FL).
        * reflexivity.
        * reflexivity.
        * unfold kind_of. rewrite KPE. reflexivity.
        * discriminate.
        * exact HI.
      + intros PY. apply (fused_python inp st l1 p n l2 st' L PV EL EP EN NI EA AL SL FL); try assumption; try reflexivity.
        * destruct (ps_supported N _ PY) as [PS _]. specialize (PS p Hp). cbn in PS. unfold py_agrees in PS. rewrite KPE in PS. exact PS.
      + intros x val EV. exists (put val p (val n)). split.
        * apply (fused_evaluates N ninf q inp st l1 p n l2 PV EL EP EN NI st' L EA AL SL FL); [|exact EV].
          intros xs Hxs. assert (LP1 : length (pn_prev N st p) = 1).
          { apply (f_equal (@length Z)) in AI. rewrite map_length in AI. exact AI. }
          rewrite LP1 in Hxs. destruct xs as [|x1 [|? ?]]; try discriminate Hxs.
          destruct AC as (H1 & H2 & H3 & H4 & H5 & H6 & H7 & H8 & _).
          pose proof (fused_conv_bn_meaning N ninf q FD impl c w b scale mean var bias eps (compute N (act_of N st n)) x1 H1 H7 H8 H4 H5 H6) as M.
          unfold meaning. unfold act_of in M at 2. unfold kind_of in KNE. unfold meaning_with in M |- *. cbn [lkind lact L] in M |- *.
          rewrite KPE, KNE. unfold act_of, kind_of in LP |- *. rewrite LP. rewrite <- SC, <- SH, <- SW. exact M.
        * apply (fused_output N inp st l1 p n l2 PV EL st' L EA). intros E1 E2. rewrite KNE. cbn. rewrite SC, SH, SW. reflexivity.
    - apply (ef_layer_o N _ _ _ _ _ _ _ EF). intros E. apply (p_n inp st l1 p n l2 PV EL). congruence.
    - rewrite (ef_layers N _ _ _ _ _ _ _ EF), EL, !app_length. cbn. lia.
  Qed.

  Lemma no_matmul_add st n : is_matmul_add N st n = false.
  Proof.
    unfold is_matmul_add. destruct (is_matmul N (kind_of N st n)); [|reflexivity]. destruct (Nat.eqb (length (pn_prev N st n)) 1); [|reflexivity].
    destruct (kind_of N st n); reflexivity.
  Qed.

  Lemma step_keeps inp st i n : pinv N inp st -> fusion_safe N (model_of N st) inp ->
    nth_error (pn_layers N st) i = Some n ->
    exists st' i', try_patterns N (registered N) n st i = Some (st', i') /\ keeps inp st st'.
  Proof.
    intros PV FS Hi. unfold registered. cbn [try_patterns is_pattern apply_pattern].
    pose proof (nth_error_In _ _ Hi) as Hn.
    destruct (is_fuse_activation N st n) eqn:E1.
    - destruct (fuse_activation_keeps inp st i n PV FS Hi E1) as (st' & j & p & EQ & KE & EP & LP & LN & PN & _).
      rewrite EQ. cbn [bind fst snd].
      assert (KA : is_activation_layer N (kind_of N st n) = true) by (unfold is_fuse_activation in E1; apply andb_prop in E1; apply E1).
      assert (KN : kind_of N st' n = kind_of N st n) by (unfold kind_of; rewrite LN; reflexivity).
      assert (E2 : is_fuse_conv_bn N st' n = false) by (unfold is_fuse_conv_bn; rewrite KN; destruct (kind_of N st n); try discriminate KA; reflexivity).
      rewrite E2, no_matmul_add. assert (E3 : is_sigmoid_mul N st' n = false).
      { unfold is_sigmoid_mul. destruct (is_activation_layer N (kind_of N st' n) && is_sigmoid N (act_of N st' n)) eqn:EE; [|reflexivity].
        apply andb_prop in EE as [_ EE]. cbn [andb].
        pose proof (kp_safe _ _ _ KE) as FS'.
        (* the operand of the removed object is unchanged: it now has its activation *)
        destruct (pn_prev N st' n) as [|p' [|? ?]] eqn:EP'; try reflexivity. destruct (pn_next N st' n) as [|m [|? ?]] eqn:EN'; try reflexivity.
        assert (p' = p) as -> by congruence.
        unfold act_of at 1. rewrite LP. cbn [lact]. unfold act_of in EE |- *. rewrite LN in EE.
        destruct (lact N (pn_layer N st n)); try discriminate EE. reflexivity. }
      rewrite E3. exists st', j. split; [reflexivity|exact KE].
    - destruct (is_fuse_conv_bn N st n) eqn:E2.
      + destruct (fuse_conv_bn_keeps inp st i n PV FS Hi E2) as (st' & j & p & EQ & KE & EP & LN & _).
        rewrite EQ. cbn [bind fst snd].
        assert (KA : is_batchnorm N (kind_of N st n) = true) by (unfold is_fuse_conv_bn in E2; apply andb_prop in E2; apply E2).
        assert (KN : kind_of N st' n = kind_of N st n) by (unfold kind_of; rewrite LN; reflexivity).
        rewrite no_matmul_add. assert (E3 : is_sigmoid_mul N st' n = false) by (unfold is_sigmoid_mul; rewrite KN; destruct (kind_of N st n); try discriminate KA; reflexivity).
        rewrite E3. exists st', j. split; [reflexivity|exact KE].
      + rewrite no_matmul_add. assert (E3 : is_sigmoid_mul N st n = false).
        { destruct (is_sigmoid_mul N st n) eqn:EE; [|reflexivity]. exfalso. unfold is_sigmoid_mul in EE.
          apply andb_prop in EE as [EE1 EE2]. apply andb_prop in EE1 as [KA SA].
          destruct (pn_prev N st n) as [|p [|? ?]] eqn:EP; try discriminate. destruct (pn_next N st n) as [|m [|? ?]] eqn:EN; try discriminate.
          repeat (apply andb_prop in EE2 as [EE2 ?]). apply is_linear_eq in EE2. apply Nat.eqb_eq in H0. apply memb_In in H.
          apply Nat.eqb_eq in H2. pose proof (sp_linked N _ inp (pv_supported N inp st PV)) as HL.
          apply (fs_silu N _ inp FS p n m); try assumption.
          - apply (links_closed _ HL n p Hn). right. cbn. rewrite EP. left. reflexivity.
          - apply (links_closed _ HL n m Hn). left. cbn. rewrite EN. left. reflexivity.
          - unfold act_of in SA. cbn. destruct (lact N (pn_layer N st n)); try discriminate SA. reflexivity. }
        rewrite E3. exists st, i. split; [reflexivity|]. apply keeps_refl; assumption.
  Qed.

  Lemma loop_keeps inp fuel : forall st i, pinv N inp st -> fusion_safe N (model_of N st) inp ->
    match_loop N fuel st i <> OutOfFuel N -> exists st', match_loop N fuel st i = Done N st' /\ keeps inp st st'.
  Proof.
    induction fuel as [|fuel IH]; intros st i PV FS HF; cbn [match_loop] in HF |- *;
      destruct (nth_error (pn_layers N st) i) as [n|] eqn:E; try (eexists; split; [reflexivity|apply keeps_refl; assumption]).
    - congruence.
    - destruct (step_keeps inp st i n PV FS E) as (st1 & i1 & E1 & K1). rewrite E1 in HF |- *.
      destruct (IH st1 (S i1) (kp_pinv _ _ _ K1) (kp_safe _ _ _ K1) HF) as (st' & E2 & K2).
      exists st'. split; [exact E2|]. exact (keeps_trans inp st st1 st' K1 K2).
  Qed.
  Theorem optimise_keeps inp st : pinv N inp st -> fusion_safe N (model_of N st) inp ->
    exists st', optimise N st = Done N st' /\ keeps inp st st'.
  Proof. intros PV FS. apply loop_keeps; [exact PV|exact FS|]. apply (optimise_ends N st). Qed.
End Proofs.
