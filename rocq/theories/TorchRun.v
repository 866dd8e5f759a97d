(** * Values computed by an imported PyTorch program (used by C71). *)
From Coq Require Import String.
From Coq Require Import ZArith List Lia Bool Reals Lra QArith Permutation.
Import ListNotations.
From Verif Require Import CMem Tensor Num RealInst Padding Conv Pooling Movement MovementProofs Linear Graph GraphSpec LayerKinds Net NetProofs Import ImportOtherProofs PropertiesImport PropertiesGraph.
From Verif Require Activation Broadcast KerasOps.
From Verif Require Import TorchSpec Torch TorchOps TorchOps2 TorchModel.
Open Scope list_scope.
Open Scope nat_scope.

(** ** tri_topo uses the list of layers in the depth-first sort only. *)
Lemma alloc_loop_same l l' pv nx c : forall ord st, alloc_loop (mkGraph l pv nx c) ord st = alloc_loop (mkGraph l' pv nx c) ord st.
Proof. induction ord as [|n ord IH]; intros st; [reflexivity|]. cbn [alloc_loop]. change (alloc_step (mkGraph l pv nx c) st n) with (alloc_step (mkGraph l' pv nx c) st n). destruct (alloc_step _ st n); [apply IH|reflexivity]. Qed.
Lemma assign_cst_same l l' pv nx c ord : assign_cst (mkGraph l pv nx c) ord = assign_cst (mkGraph l' pv nx c) ord.
Proof.
  unfold assign_cst. apply (f_equal dict_cst). generalize (mkCst 0 [] [] []). induction ord as [|n ord IH]; intros st; [reflexivity|]. cbn [fold_left].
  change (cst_step (mkGraph l pv nx c) st n) with (cst_step (mkGraph l' pv nx c) st n). apply IH.
Qed.
Lemma tri_topo_same l l' pv nx c : depth_first_sort (mkGraph l pv nx c) = depth_first_sort (mkGraph l' pv nx c) ->
  tri_topo (mkGraph l pv nx c) = tri_topo (mkGraph l' pv nx c).
Proof.
  intros E. unfold tri_topo. rewrite E. clear E. destruct (depth_first_sort (mkGraph l' pv nx c)) as [srt|]; [|reflexivity]. change (hoist_constants (mkGraph l pv nx c) srt) with (hoist_constants (mkGraph l' pv nx c) srt).
  destruct (hoist_constants (mkGraph l' pv nx c) srt) as [ord|]; [|reflexivity]. unfold assign_liveliness_index. rewrite (alloc_loop_same l l'), (assign_cst_same l l'). reflexivity.
Qed.

(** A channels_last program returns images, or the result of a linear operation
    (followed or not by operations that do not become layers). *)
Definition output_ordered (m : program) (sh : string -> list Z) : Prop :=
  p_channels_last m = true -> exists o, comes_from in_place m (p_output m) o /\ (zlen (sh (p_output m)) = 3%Z \/ exists i k w b, o = Linear i k w b).

Section Run.
  Variable m : program.
  Variable sh : string -> list Z.
  Hypothesis WF : well_formed m.
  Hypothesis SH : shaped m sh.
  Hypothesis PI : positive_dims (p_shape m).
  Hypothesis IM : all_importable m sh.
  Hypothesis EX : exclusive m.
  Hypothesis AB : absorbable m.
  Variable impl : conv_impl.
  Variable ninf : R.
  Variable q : Q -> R.
  Variable st : tstate.
  Variable holder : string -> nat.
  Variable reg : string -> list Z.
  Variable tip : nat -> string.
  Hypothesis V : inv m sh impl ninf q (p_nodes m) st holder reg tip.
  Let count := ts_count st.
  Let g := graph_of st (seq 0 count).
  Let md := mkModel Rnum g (ts_layer st) (p_channels_last m).
  Let all := names m (p_nodes m).

  Lemma last_node : exists b n, p_nodes m = b ++ [n] /\ p_output m = n_name n.
  Proof.
    pose proof (app_removelast_last (mkNode (p_input m) Dropout [] 0) (wf_some _ WF)) as EL. eexists _, _. split; [exact EL|reflexivity].
  Qed.
  Lemma output_in : In (p_output m) all.
  Proof. destruct last_node as (b & n & E & ->). right. apply in_map. rewrite E. apply in_or_app. right. left. reflexivity. Qed.
  Lemma output_unread n : In n (p_nodes m) -> ~ In (p_output m) (n_inputs n).
  Proof.
    intros Hn Hr. destruct last_node as (b & k & E & EO). destruct (in_split _ _ Hn) as (b1 & b2 & E1). pose proof (proj2 (wf_order _ WF _ _ _ E1) _ Hr) as HI. rewrite EO in HI.
    apply (fresh m WF b k [] E). destruct HI as [HI|HI]; [left; exact HI|]. right. destruct b2 as [|y b2] using rev_ind.
    - assert (EB : b ++ [k] = b1 ++ [n]) by congruence. apply app_inj_tail in EB. destruct EB as (-> & _). exact HI.
    - assert (EB : b ++ [k] = (b1 ++ n :: b2) ++ [y]) by (rewrite <- app_assoc; cbn [app]; congruence). apply app_inj_tail in EB. destruct EB as (-> & _). rewrite map_app. apply in_or_app. left. exact HI.
  Qed.
  Lemma output_tip : tip (holder (p_output m)) = p_output m.
  Proof. apply (v_current _ _ _ _ _ _ _ _ _ _ V _ output_in). intros n Hn _. apply output_unread. exact Hn. Qed.
  Lemma inputs_in n a : In n (p_nodes m) -> In a (n_inputs n) -> In a all.
  Proof.
    intros Hn Ha. destruct (in_split _ _ Hn) as (b1 & b2 & E). apply (proj2 (wf_order _ WF _ _ _ E)) in Ha. destruct Ha as [Ha|Ha]; [left; exact Ha|right]. rewrite E, map_app. apply in_or_app. left. exact Ha.
  Qed.
  Lemma input_tip n a : In n (p_nodes m) -> in_place (n_op n) = false -> In a (n_inputs n) -> tip (holder a) = a.
  Proof.
    intros Hn IP Ha. apply (v_current _ _ _ _ _ _ _ _ _ _ V a (inputs_in n a Hn Ha)). intros n' Hn' IP' Ha'. pose proof (EX n' n a Hn' Hn IP' Ha' Ha) as ->. congruence.
  Qed.
  Lemma origin k : 0 < k < count -> exists n, In n (p_nodes m) /\ in_place (n_op n) = false /\ holder (n_name n) = k /\ lprev (ts_links st) k = map holder (n_inputs n) /\
    holds_tensor m sh impl ninf q (ts_layer st k) n (tip k) (reg (tip k)).
  Proof.
    intros Hk. destruct (v_origin _ _ _ _ _ _ _ _ _ _ V k Hk) as (n & Hn & IP & HN & HT). exists n. split; [exact Hn|]. split; [exact IP|]. split; [exact HN|]. split; [|exact HT].
    destruct (v_made _ _ _ _ _ _ _ _ _ _ V n Hn IP) as (M & _). rewrite HN in M. exact M.
  Qed.
  Lemma in_g i : In i (dnn g) <-> i < count.
  Proof. unfold g, graph_of. cbn [dnn]. rewrite in_seq. lia. Qed.
  Lemma inputs_nonempty n : In n (p_nodes m) -> n_inputs n <> [].
  Proof. intros Hn. destruct (in_split _ _ Hn) as (b1 & b2 & E). exact (proj1 (wf_order _ WF _ _ _ E)). Qed.
  Lemma prev_nonempty i : i < count -> i <> 0 -> previous_layer g i <> [].
  Proof.
    intros Hi H0. destruct (origin i ltac:(lia)) as (n & Hn & _ & _ & EP & _). unfold g, graph_of. cbn [previous_layer]. rewrite EP. intros H. apply (inputs_nonempty n Hn). destruct (n_inputs n); [reflexivity|discriminate].
  Qed.
  Lemma read_by i : i < count -> i <> holder (p_output m) -> exists s, s < count /\ In i (previous_layer g s).
  Proof.
    intros Hi NE. destruct (v_tip _ _ _ _ _ _ _ _ _ _ V i Hi) as (T1 & T2). destruct (wf_read _ WF (tip i) T1 ltac:(congruence)) as (n & Hn & Hr).
    destruct (in_place (n_op n)) eqn:IP; [exfalso; apply (v_consumed _ _ _ _ _ _ _ _ _ _ V n (tip i) Hn IP Hr); rewrite T2; reflexivity|].
    destruct (v_made _ _ _ _ _ _ _ _ _ _ V n Hn IP) as (M & _). exists (holder (n_name n)). split; [apply (v_holder _ _ _ _ _ _ _ _ _ _ V); right; apply in_map; exact Hn|].
    unfold g, graph_of. cbn [previous_layer]. rewrite M. rewrite <- T2. apply in_map. exact Hr.
  Qed.
  Lemma graph_ok : linked g /\ acyclic g.
  Proof. exact (building_graph _ _ _ (v_links _ _ _ _ _ _ _ _ _ _ V)). Qed.
  Lemma no_constant i : is_constant g i = false. Proof. reflexivity. Qed.
  Lemma scheduled : exists s, tri_topo g = Some s /\ hd 0 (order s) = 0 /\ last (order s) 0 = holder (p_output m) /\ Permutation (dnn g) (order s).
  Proof.
    destruct graph_ok as (L & A). pose proof (v_count _ _ _ _ _ _ _ _ _ _ V) as CP. fold count in CP.
    assert (I0 : In 0 (dnn g)) by (apply in_g; exact CP).
    destruct (C01_layers_after_their_producers g L A) as (s & ES & PM & T).
    - intros c _ H. rewrite no_constant in H. discriminate.
    - intros i Hi HN. destruct (previous_layer g i) as [|p ps]; [congruence|]. exists p. split; [left; reflexivity|apply no_constant].
    - exists 0. split; [exact I0|apply no_constant].
    - exists s. split; [exact ES|]. assert (I0' : In 0 (order s)) by (eapply Permutation_in; eassumption).
      assert (ND : NoDup (order s)) by (eapply Permutation_NoDup; [exact PM|apply L]).
      split; [|split; [|exact PM]].
      + destruct (order s) as [|k r] eqn:EO; [destruct I0'|]. cbn [hd]. destruct (Nat.eq_dec k 0) as [|NE]; [assumption|exfalso].
        assert (Hk : In k (dnn g)) by (eapply Permutation_in; [apply Permutation_sym; exact PM|left; reflexivity]).
        destruct (previous_layer g k) as [|p ps] eqn:EP; [exact (prev_nonempty k (proj1 (in_g k) Hk) NE EP)|]. destruct (T [] k r eq_refl p). rewrite EP. left. reflexivity.
      + destruct (Nat.eq_dec (last (order s) 0) (holder (p_output m))) as [|NE]; [assumption|exfalso].
        assert (NN : order s <> []) by (intros E; rewrite E in I0'; destruct I0'). pose proof (app_removelast_last 0 NN) as EL. remember (last (order s) 0) as z eqn:EZ.
        assert (Hz : In z (dnn g)). { eapply Permutation_in; [apply Permutation_sym; exact PM|]. rewrite EL. apply in_or_app. right. left. reflexivity. }
        destruct (read_by z (proj1 (in_g z) Hz) NE) as (k & Hk & Hr). assert (Hk' : In k (order s)) by (eapply Permutation_in; [exact PM|apply in_g; exact Hk]). destruct (in_split _ _ Hk') as (l1 & l2 & EO).
        pose proof (T l1 k l2 EO z Hr) as H1.
        assert (Hzl : In z (k :: l2)).
        { rewrite EO in EZ. rewrite EZ. clear. induction l1 as [|x l1 IH]; [|cbn [app]; destruct (l1 ++ k :: l2) eqn:E; [destruct l1; discriminate|exact IH]].
          cbn [app]. generalize k. induction l2 as [|y l2 IH]; intros k'; [left; reflexivity|]. right. exact (IH y). }
        rewrite EO in ND. clear - ND H1 Hzl. induction l1 as [|x l1 IH]; [destruct H1|]. cbn [app] in ND. inversion ND as [|? ? NI ND']; subst.
        destruct H1 as [-> |H1]; [apply NI; apply in_or_app; right; exact Hzl|exact (IH ND' H1)].
  Qed.
  (** The list with repeated layers that the importer gives is sorted the same way. *)
  Lemma named_sorted : tri_topo (graph_of st (named_layers st)) = tri_topo g.
  Proof.
    apply tri_topo_same. destruct scheduled as (s & ES & _). unfold tri_topo in ES. change (mkGraph (seq 0 count) (lprev (ts_links st)) (lnext (ts_links st)) (fun _ => false)) with g.
    destruct (depth_first_sort g) as [srt|] eqn:ED; [|discriminate]. clear ES. unfold depth_first_sort in *. cbn [dnn next_layer].
    unfold g, graph_of in ED. cbn [dnn next_layer] in ED. destruct (sort_all (lnext (ts_links st)) (S (length (seq 0 count))) (seq 0 count) ([], [])) as [[srt' vis]|] eqn:ESR; [|discriminate]. injection ED as ->.
    assert (NL : named_layers st = map holder all) by (unfold named_layers; rewrite (v_dic _ _ _ _ _ _ _ _ _ _ V), map_map; reflexivity).
    assert (LE : S (length (seq 0 count)) <= S (length (named_layers st))).
    { apply le_n_S. apply NoDup_incl_length; [apply seq_NoDup|]. intros k Hk. apply in_seq in Hk. rewrite NL. destruct (v_tip _ _ _ _ _ _ _ _ _ _ V k ltac:(unfold count in *; lia)) as (T1 & T2). rewrite <- T2. apply in_map. exact T1. }
    rewrite NL at 2. unfold all. rewrite (v_sort _ _ _ _ _ _ _ _ _ _ V). fold count. rewrite (sort_more _ _ _ LE _ _ _ ESR). reflexivity.
  Qed.

  (** ** Values. *)
  Lemma in_memory_pre s x : hd 0 (order s) = 0 -> zlen x = size_of (p_shape m) -> md_pre Rnum md s (in_memory m (p_shape m) x) = x.
  Proof.
    intros H0 HX. unfold md_pre, lk. rewrite H0. unfold md. cbn [md_layer md_last]. rewrite (v_layer0 _ _ _ _ _ _ _ _ _ _ V). unfold import_input, in_memory. cbn [plain lkind]. pose proof PI as PI'.
    destruct (p_shape m) as [|a [|b [|c [|d r]]]]; try reflexivity. destruct (p_channels_last m); [|reflexivity].
    inversion PI' as [|? ? Q1 PI1]; inversion PI1 as [|? ? Q2 PI2]; inversion PI2; subst. rewrite size3 in HX. apply (to_first_to_last (V := R)); lia.
  Qed.
  Lemma run_values s x env val : hd 0 (order s) = 0 -> zlen x = size_of (p_shape m) -> runs m x env ->
    evaluates (documented_net Rnum ninf q md s) (in_memory m (p_shape m) x) val -> forall k, k < count -> val k = vals (env (tip k)).
  Proof.
    intros H0 HX RU EV k. induction k as [k IH] using lt_wf_ind. intros Hk. rewrite (EV k (proj2 (in_g k) Hk)). unfold documented_net, net_with. cbn [net_graph forward pre].
    unfold md at 1 2. cbn [md_graph md_layer]. unfold g, graph_of. cbn [previous_layer]. destruct (Nat.eq_dec k 0) as [->|NK].
    - rewrite (v_first _ _ _ _ _ _ _ _ _ _ V), in_memory_pre by assumption. rewrite (v_layer0 _ _ _ _ _ _ _ _ _ _ V). rewrite (proj1 (v_tip0 _ _ _ _ _ _ _ _ _ _ V) x env RU).
      unfold import_input, meaning, meaning_with. cbn [plain lkind]. destruct (p_shape m) as [|a [|b [|c [|d r]]]]; reflexivity.
    - destruct (origin k ltac:(lia)) as (n & Hn & IP & HN & EP & HT). rewrite <- (h_meaning _ _ _ _ _ _ _ _ _ HT x env RU HX). f_equal.
      assert (EM : map val (lprev (ts_links st) k) = map vals (map env (n_inputs n))).
      { rewrite EP, !map_map. apply map_ext_in. intros a Ha. rewrite IH.
        - rewrite (input_tip n a Hn IP Ha). reflexivity.
        - apply (b_before _ _ (v_links _ _ _ _ _ _ _ _ _ _ V)). rewrite EP. apply in_map. exact Ha.
        - apply (v_holder _ _ _ _ _ _ _ _ _ _ V). eapply inputs_in; eassumption. }
      rewrite <- EM, EP. pose proof (inputs_nonempty n Hn) as NI. destruct (n_inputs n); [congruence|reflexivity].
  Qed.
  Lemma layer_channels k : 0 < k < count -> out_channels Rnum (lkind Rnum (ts_layer st k)) = channels_of (reg (tip k)).
  Proof.
    intros Hk. destruct (origin k Hk) as (n & _ & _ & _ & _ & HT). exact (h_channels _ _ _ _ _ _ _ _ _ HT).
  Qed.
  Lemma output_value s x env val : output_ordered m sh -> hd 0 (order s) = 0 -> last (order s) 0 = holder (p_output m) -> zlen x = size_of (p_shape m) -> runs m x env ->
    evaluates (documented_net Rnum ninf q md s) (in_memory m (p_shape m) x) val ->
    md_post Rnum md s (val (last (order s) 0)) = in_memory m (dims (env (p_output m))) (vals (env (p_output m))).
  Proof.
    intros OO H0 HL HX RU EV. pose proof (v_holder _ _ _ _ _ _ _ _ _ _ V _ output_in) as HC. pose proof (run_values s x env val H0 HX RU EV _ HC) as VO. rewrite output_tip in VO.
    pose proof (run_sized m sh WF SH PI IM x env RU HX (p_nodes m) [] ltac:(rewrite app_nil_r; reflexivity)) as SZ. rewrite Forall_forall in SZ. destruct (SZ _ output_in) as (ED & _).
    unfold md_post, lk. rewrite HL, VO, ED. unfold md. cbn [md_layer md_last]. unfold in_memory.
    destruct (p_channels_last m) eqn:CL.
    - destruct (OO CL) as (o & CF & OC).
      assert (K0 : 0 < holder (p_output m) < count).
      { destruct (Nat.eq_dec (holder (p_output m)) 0) as [K0|K0]; [exfalso|unfold count in *; lia]. rewrite <- output_tip, K0 in CF. apply (proj1 (proj2 (proj2 (v_tip0 _ _ _ _ _ _ _ _ _ _ V))) _ CF). }
      rewrite (layer_channels _ K0), output_tip. destruct OC as [Z3|(i & k & w & b & ->)].
      + destruct (v_reg _ _ _ _ _ _ _ _ _ _ V _ output_in) as [->|Z1]; [|lia]. destruct (sh (p_output m)) as [|a1 [|a2 [|a3 [|a4 r]]]]; reflexivity.
      + assert (Z1 : zlen (reg (p_output m)) = 1%Z).
        { rewrite <- output_tip in CF. destruct (origin (holder (p_output m)) K0) as (n & _ & _ & _ & _ & HT). rewrite <- output_tip. exact (h_dense _ _ _ _ _ _ _ _ _ HT _ _ _ _ CF). }
        assert (CN : channels_of (reg (p_output m)) = None) by (destruct (reg (p_output m)) as [|? [|? [|? [|? ?]]]]; try reflexivity; unfold zlen in Z1; cbn [length] in Z1; lia).
        rewrite CN. destruct (v_reg _ _ _ _ _ _ _ _ _ _ V _ output_in) as [ER|ZS]; [rewrite <- ER|]; [destruct (reg (p_output m)) as [|? [|? [|? [|? ?]]]]|destruct (sh (p_output m)) as [|? [|? [|? [|? ?]]]]]; try reflexivity; unfold zlen in *; cbn [length] in *; lia.
    - destruct (out_channels Rnum (lkind Rnum (ts_layer st (holder (p_output m))))) as [[[c h] w]|]; destruct (sh (p_output m)) as [|? [|? [|? [|? ?]]]]; reflexivity.
  Qed.

  (** ** The imported network is supported by the code generator. *)
  Hypothesis SIX : impl = SixLoops.
  Hypothesis GEN : all_generable m.
  Hypothesis NR : forall n, In n (p_nodes m) -> NoDup (n_inputs n).
  Lemma size_holder nm : In nm all -> md_size Rnum md (holder nm) = size_of (sh nm).
  Proof. intros H. exact (v_size _ _ _ _ _ _ _ _ _ _ V nm H). Qed.
  Lemma torch_supported : supported Rnum md 0.
  Proof.
    destruct graph_ok as (L & A). pose proof (v_count _ _ _ _ _ _ _ _ _ _ V) as CP. fold count in CP.
    assert (P0 : previous_layer g 0 = []) by exact (v_first _ _ _ _ _ _ _ _ _ _ V).
    assert (KC : forall i, 0 < i < count -> made_kind (lk Rnum md i) = true).
    { intros i Hi. destruct (origin i Hi) as (n & _ & _ & _ & _ & HT). exact (h_kind _ _ _ _ _ _ _ _ _ HT). }
    assert (K0 : (exists C H W, lk Rnum md 0 = KInput4 Rnum C H W /\ (0 <= C)%Z /\ (0 <= H)%Z /\ (0 <= W)%Z) \/ (exists n, lk Rnum md 0 = KInput Rnum n)).
    { unfold lk, md. cbn [md_layer]. rewrite (v_layer0 _ _ _ _ _ _ _ _ _ _ V). unfold import_input. cbn [plain lkind]. pose proof PI as PI'. destruct (p_shape m) as [|x [|y [|z [|w r]]]]; try (right; eexists; reflexivity).
      left. exists x, y, z. split; [reflexivity|]. inversion PI' as [|? ? Q1 PI1]; inversion PI1 as [|? ? Q2 PI2]; inversion PI2; subst. lia. }
    constructor; unfold md; cbn [md_graph]; fold md; try assumption.
    - intros i Hi. apply in_g in Hi. destruct (Nat.eq_dec i 0) as [->|N0]; [rewrite P0; constructor|]. destruct (origin i ltac:(lia)) as (n & Hn & IP & _ & EP & _).
      unfold g, graph_of. cbn [previous_layer]. rewrite EP. pose proof (NR n Hn) as ND. assert (TI : forall a, In a (n_inputs n) -> tip (holder a) = a) by (intros a Ha; eapply input_tip; eassumption).
      clear - ND TI. revert ND TI. generalize (n_inputs n). intros nms ND TI. induction ND as [|x l NI ND IH]; [constructor|]. cbn [map]. constructor; [|apply IH; intros a Ha; apply TI; right; exact Ha].
      intros H. apply in_map_iff in H. destruct H as (y & EY & Hy). apply NI. rewrite <- (TI x (or_introl eq_refl)), <- EY, (TI y (or_intror Hy)). exact Hy.
    - intros i Hi. rewrite no_constant. split; [discriminate|]. intros (w & H). exfalso. apply in_g in Hi. destruct (Nat.eq_dec i 0) as [->|N0].
      + destruct K0 as [(C & H1 & W & E & _)|(n & E)]; rewrite H in E; discriminate.
      + pose proof (KC i ltac:(lia)) as K. rewrite H in K. discriminate.
    - intros i _ H. rewrite no_constant in H. discriminate.
    - split; [clear - CP; unfold g, graph_of; cbn [dnn]; unfold count in *; destruct (ts_count st); [lia|reflexivity]|]. split; [apply no_constant|]. split; [exact P0|]. intros i Hi N0 _. apply in_g in Hi. pose proof (prev_nonempty i Hi N0) as NE. destruct (previous_layer g i) as [|p ps]; [congruence|]. exists p. split; [left; reflexivity|apply no_constant].
    - intros i Hi HP. apply in_g in Hi. destruct (Nat.eq_dec i 0) as [->|N0]; [rewrite P0 in HP; congruence|]. destruct (origin i ltac:(lia)) as (n & Hn & IP & _ & EP & HT).
      unfold g, graph_of. cbn [previous_layer]. rewrite EP. assert (EM : map (md_size Rnum md) (map holder (n_inputs n)) = map size_of (map sh (n_inputs n))).
      { rewrite !map_map. apply map_ext_in. intros a Ha. apply size_holder. eapply inputs_in; eassumption. }
      rewrite EM. exact (h_accepts _ _ _ _ _ _ _ _ _ HT SIX GEN).
    - intros i p cl C0 H0 W0 Hi HK HP. apply in_g in Hi. exfalso. destruct (Nat.eq_dec i 0) as [->|N0]; [rewrite P0 in HP; discriminate|]. pose proof (KC i ltac:(lia)) as K. rewrite HK in K. discriminate.
  Qed.
End Run.
