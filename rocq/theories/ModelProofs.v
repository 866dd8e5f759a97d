(** * Supported models satisfy the hypotheses of NetProofs.v. *)
From Coq Require Import ZArith List Lia Bool QArith.
Import ListNotations.
From Verif Require Import CMem Tensor Num Activation Movement MovementProofs Conv Pooling Pad Reduce Resize
  Graph GraphSpec GraphProofs GraphProofs2 GraphProofs3 GraphProofs4 GraphProofs5 Net NetProofs PropertiesMovement PropertiesConv PropertiesGraph PropertiesPad
  LayerKinds LayerKindsProofs.
From Verif Require Broadcast BroadcastProofs.
Open Scope Z_scope.

Lemma holds_full {V} (m : mem V) b x : holds m b x -> zlen (m b) = zlen x -> m b = x.
Proof.
  intros [r E] H. rewrite E in *. rewrite zlen_app in H. pose proof (zlen_nonneg r).
  assert (zlen r = 0) by lia. unfold zlen in *. destruct r; [apply app_nil_r|cbn in *; lia].
Qed.

Section Model.
  Context (N : num) (ninf : T N) (q : Q -> T N).
  Notation V := (T N).
  Notation mem := (mem V).
  Notation z := (n0 N).
  Notation gen_code := (gen_code N ninf q).
  Notation meaning := (meaning N ninf q).
  Notation accepts := (accepts N).
  Notation documented_net := (documented_net N ninf q).
  Notation python_net := (python_net N ninf q).

  (** output_channels * output_height * output_width is the size *)
  Lemma channels_size (l : layer N) ins C H W : accepts l ins -> out_channels N (lkind N l) = Some (C, H, W) ->
    0 <= C /\ 0 <= H /\ 0 <= W /\ C * H * W = out_size N (lkind N l).
  Proof.
    destruct l as [kd a]. intros (_ & B) E. cbn [lkind lact] in *.
    destruct kd; cbn [out_channels out_size] in *; try discriminate; try (injection E as <- <- <-).
    - destruct B as (_ & ? & ? & ? & ?). repeat split; auto.
    - destruct B as (_ & ? & ? & ? & ?). repeat split; auto; lia.
    - destruct B as (_ & ? & ? & ? & ?). repeat split; auto; lia.
    - destruct B as (_ & ? & ? & ? & HP).
      destruct (perm_cases _ _ _ HP) as [(->&->&->)|[(->&->&->)|[(->&->&->)|[(->&->&->)|[(->&->&->)|(->&->&->)]]]]]; cbn;
        (split; [assumption|split; [assumption|split; [assumption|lia]]]).
    - destruct B as (_ & ? & ? & ? & _). auto.
    - destruct B as (_ & ? & ? & ? & ? & _). pose proof (zlen_nonneg inds).
      destruct (axis =? 1), (axis =? 2), (axis =? 3); auto.
    - destruct B as (_ & ? & ? & ? & ? & _). auto.
    - destruct B as (_ & ? & ? & ? & ? & ? & ?). repeat split; auto; nia.
    - destruct B as (_ & ? & ? & ? & ? & ? & ? & _). auto.
    - destruct B as (_ & ? & ? & ? & _). auto.
    - destruct B as (_ & ? & ? & ? & _). auto.
    - destruct B as (_ & (? & ? & ? & ? & ? & ? & ? & ? & ?) & _). unfold pad_size. repeat split; lia.
    - destruct B as (_ & B2 & _). pose proof B2 as (P1 & P2 & (M1 & M1') & (M2 & M2') & (M3 & M3')). rewrite Forall_forall in P1.
      apply in_map_iff in M1. destruct M1 as (s1 & <- & I1). apply in_map_iff in M2. destruct M2 as (s2 & <- & I2).
      apply in_map_iff in M3. destruct M3 as (s3 & <- & I3).
      apply P1 in I1, I2, I3. destruct I1 as (? & ? & ?), I2 as (? & ? & ?), I3 as (? & ? & ?). repeat split; lia.
    - destruct B as (_ & ? & ? & ? & _). unfold red_dim. split; [|split; [|split]]; try reflexivity; destruct (_ || _); lia.
    - destruct B as (_ & ? & ? & ? & _). destruct (one_dimension C0 H0 W0); [discriminate|]. injection E as <- <- <-. repeat split; lia.
    - destruct B as (_ & (? & ? & ? & ? & ? & ? & ?) & _). auto.
    - destruct B as (_ & ? & ? & ? & _). auto.
    - destruct B as (_ & _ & ? & ? & ? & _). auto.
  Qed.

  Context (md : model N) (inp : nat) (s : schedule).
  Hypothesis SP : supported N md inp.
  Hypothesis RN : runnable (md_graph N md) s.
  Hypothesis HH : hd O (order s) = inp.
  Notation g := (md_graph N md).

  Lemma HL : linked g. Proof. apply SP. Qed.
  Lemma HA : acyclic g. Proof. apply SP. Qed.
  Lemma HR : no_repeated_input g. Proof. apply SP. Qed.
  Lemma HC : constants_are_sources g. Proof. apply SP. Qed.
  Lemma HX : no_constant_expression g.
  Proof. exact (single_input_no_constant_expression g inp (sp_single N md inp SP) HC). Qed.
  Lemma IO_run : forall n, In n (order s) <-> In n (dnn g).
  Proof. exact (in_order (documented_net md s) s RN). Qed.

  Lemma inp_in : In inp (dnn g).
  Proof. pose proof (sp_single N md inp SP) as (H & _). destruct (dnn g); [discriminate|]. injection H as ->. left. reflexivity. Qed.

  (** A layer without inputs is the input layer or a constant. *)
  Lemma source_kind n : In n (dnn g) -> previous_layer g n = [] -> n = inp \/ exists w, lk N md n = KConstant N w.
  Proof.
    intros Hn Hp. destruct (Nat.eq_dec n inp) as [->|NE]; [left; reflexivity|]. right.
    destruct (is_constant g n) eqn:EC; [apply (sp_constants N md inp SP); assumption|].
    pose proof (sp_single N md inp SP) as (_ & _ & _ & H). destruct (H n Hn NE EC) as (p & Hpp & _).
    rewrite Hp in Hpp. destruct Hpp.
  Qed.

  Lemma size_le_l n : In n (order s) -> md_size N md n <= l_size_max (documented_net md s) s.
  Proof. intros H. unfold l_size_max. apply max_list_le. apply (in_map (md_size N md)). exact H. Qed.
  Lemma l_size_nonneg : 0 <= l_size_max (documented_net md s) s.
  Proof. apply max_list_nonneg. Qed.
  Lemma l_le_temp : l_size_max (documented_net md s) s <= temp_size (documented_net md s) s.
  Proof. unfold temp_size. lia. Qed.
  Lemma l_le_path : l_size_max (documented_net md s) s <= path_size (documented_net md s) s.
  Proof. unfold path_size. destruct (existsb _ _); lia. Qed.
  Lemma patches_le n p : In n (order s) -> md_patches N (lk N md n) = Some p -> p <= path_size (documented_net md s) s.
  Proof.
    intros Hn Hp. unfold path_size. replace (existsb _ (order s)) with true.
    2:{ symmetry. apply existsb_exists. exists n. split; [exact Hn|]. cbn. rewrite Hp. reflexivity. }
    unfold patches_size_max. etransitivity; [|apply Z.le_max_r]. etransitivity; [|apply Z.le_max_r].
    etransitivity; [|apply max_list_le; apply in_map; exact Hn]. cbn. rewrite Hp. lia.
  Qed.

  Lemma all_some_not_temp ps srcs : all_some (map (output_str s) ps) = Some srcs -> Forall (fun b => b <> Temp) srcs.
  Proof.
    revert srcs. induction ps as [|p ps IH]; intros srcs E; cbn in E; [injection E as <-; constructor|].
    destruct (output_str s p) as [b|] eqn:Eb; [|discriminate]. cbn in E.
    destruct (all_some (map (output_str s) ps)) as [bs|] eqn:Es; [|discriminate]. cbn in E. injection E as <-.
    constructor; [|apply IH; reflexivity].
    destruct (output_str_kind s p b Eb) as [[k ->]|[k ->]]; discriminate.
  Qed.

  Lemma placed_ok n srcs k xs : In n (order s) -> previous_layer g n <> [] -> sources (documented_net md s) s n = Some srcs ->
    dget (paths s) n = Some k -> accepts (md_layer N md n) xs -> xs = map (md_size N md) (previous_layer g n) ->
    placed N (lk N md n) srcs (Out k).
  Proof.
    intros Hn Hp Hs Hk A EX. pose proof (proj1 (IO_run n) Hn) as Hd.
    assert (OP : (exists C, lk N md n = C /\ match C with KFlatten _ _ _ _ _ | KConv _ StdGemmNN _ _ _ => True | _ => False end) ->
                 exists p, previous_layer g n = [p] /\ exists b, output_str s p = Some b /\ srcs = [b]).
    { intros (C & EC & HCk). assert (exists p, previous_layer g n = [p]) as [p Ep].
      { destruct A as (_ & B). unfold lk in EC. rewrite EC in B. subst xs.
        destruct C; try (destruct HCk; fail); cbn in B.
        - destruct B as (B & _). destruct (previous_layer g n) as [|p [|? ?]]; try discriminate. eauto.
        - destruct B as (B & _). destruct (previous_layer g n) as [|p [|? ?]]; try discriminate. eauto. }
      exists p. split; [exact Ep|]. unfold sources in Hs. cbn in Hs. rewrite Ep in Hs. cbn in Hs.
      destruct (output_str s p) as [b|] eqn:Eb; [|discriminate]. cbn in Hs. injection Hs as <-. exists b. auto. }
    destruct (lk N md n) eqn:EK; try exact I.
    - (* Flatten *)
      destruct OP as (p & Ep & b & Eb & ->); [eexists; split; [reflexivity|exact I]|].
      pose proof (sp_flatten N md inp SP n p _ _ _ _ Hd EK Ep) as Enx.
      assert (Hpi : In p (order s)).
      { apply IO_run. eapply (links_closed g HL n p Hd). right. rewrite Ep. left. reflexivity. }
      destruct (rn_inplace g s RN n p Hn Ep Enx) as (i & I1 & I2).
      rewrite Hk in I2. injection I2 as <-. unfold output_str in Eb. rewrite I1 in Eb.
      destruct (dget (csts s) p) as [j|] eqn:Ej; [|injection Eb as <-; reflexivity].
      exfalso. assert (X : exists j, dget (csts s) p = Some j) by eauto.
      apply (rn_saved g s RN p Hpi) in X. rewrite Enx in X. cbn in X. lia.
    - destruct impl; try exact I.
      destruct OP as (p & Ep & b1 & Eb & ->); [eexists; split; [reflexivity|exact I]|].
      assert (Hpi : In p (order s)).
      { apply IO_run. eapply (links_closed g HL n p Hd). right. rewrite Ep. left. reflexivity. }
      unfold output_str in Eb. destruct (dget (csts s) p) as [j|] eqn:Ej.
      { injection Eb as <-. left. exists j. reflexivity. }
      right. f_equal.
      assert (LN : ~ (1 < length (next_layer g p))%nat).
      { intros X. apply (rn_saved g s RN p Hpi) in X. destruct X as (j & X). congruence. }
      assert (In n (next_layer g p)).
      { apply (linked_In g p n HL); auto; [apply IO_run; exact Hpi|]. rewrite Ep. left. reflexivity. }
      assert (Enx : next_layer g p = [n]).
      { destruct (next_layer g p) as [|a [|? ?]]; cbn in *; [tauto| |lia]. destruct H as [<-|[]]. reflexivity. }
      destruct (rn_inplace g s RN n p Hn Ep Enx) as (i & I1 & I2).
      rewrite Hk in I2. injection I2 as <-. rewrite I1 in Eb. injection Eb as <-. reflexivity.
  Qed.

  Lemma supported_layer_correct : layer_correct (documented_net md s) s (md_size N md inp).
  Proof.
    intros n srcs k Hn Hs Hk. pose proof (proj1 (IO_run n) Hn) as Hd.
    pose proof (size_le_l n Hn) as HSn. pose proof l_le_temp as HT. pose proof l_le_path as HPp. pose proof l_size_nonneg as H0.
    cbn [documented_net LayerKinds.documented_net net_with net_graph size forward pre code].
    destruct (previous_layer g n) as [|p0 ps0] eqn:EP.
    - intros x Hx. unfold sources in Hs. cbn in Hs. rewrite EP in Hs. injection Hs as <-.
      destruct (source_kind n Hd EP) as [->|[w Ew]].
      + (* the input layer *)
        assert (Epre : md_pre N md s = fun x => match lk N md inp with
           | KInput4 _ C H W => if md_last N md then to_first z C H W x else x | _ => x end).
        { unfold md_pre. rewrite HH. reflexivity. }
        rewrite Epre. unfold md_size, lk in *. unfold LayerKinds.meaning, meaning_with, LayerKinds.gen_code.
        destruct (sp_input N md inp SP) as [(C & H & W & EK & HC0 & HH0 & HW0)|(n0 & EK)]; unfold lk in EK; rewrite EK in *; cbn [out_size] in *.
        * destruct (md_last N md).
          -- split; [apply zlen_to_first; assumption|]. intros m HM HTm HOm. apply holds_src1 in HM.
             destruct (last_to_first_spec z NnIn (Out k) C H W m x) as (m' & E1 & O1 & Hh); auto; try discriminate; try lia.
             exists m'. split; [exact E1|]. split; [exact Hh|]. split; [intros b; apply (only_zlen m m' (Out k) b O1)|].
             intros b _ Hb. apply O1. exact Hb.
          -- split; [exact Hx|]. intros m HM HTm HOm. apply holds_src1 in HM.
             destruct (copy_spec NnIn (Out k) (C * H * W) m x) as (m' & E1 & O1 & Hh); auto; try discriminate; try lia.
             exists m'. split; [exact E1|]. split; [exact Hh|]. split; [intros b; apply (only_zlen m m' (Out k) b O1)|].
             intros b _ Hb. apply O1. exact Hb.
        * split; [exact Hx|]. intros m HM HTm HOm. apply holds_src1 in HM.
          destruct (copy_spec NnIn (Out k) n0 m x) as (m' & E1 & O1 & Hh); auto; try discriminate; try lia.
          exists m'. split; [exact E1|]. split; [exact Hh|]. split; [intros b; apply (only_zlen m m' (Out k) b O1)|].
          intros b _ Hb. apply O1. exact Hb.
      + unfold md_size, lk in *. unfold LayerKinds.meaning, meaning_with, LayerKinds.gen_code. rewrite Ew in *. cbn [out_size] in *.
        split; [reflexivity|]. intros m HM HTm HOm. pose proof (zlen_nonneg w).
        destruct (constant_c_spec z w (Out k) (zlen w) m) as (m' & E1 & O1 & Hh); auto; try lia.
        exists m'. split; [exact E1|]. split; [exact Hh|]. split; [intros b; apply (only_zlen m m' (Out k) b O1)|].
        intros b _ Hb. apply O1. exact Hb.
    - rewrite <- EP. intros xs Hxs.
      assert (NE : previous_layer g n <> []) by (rewrite EP; discriminate).
      pose proof (sp_layers N md inp SP n Hd NE) as A. rewrite <- Hxs in A.
      assert (Hs2 := Hs). unfold sources in Hs2. cbn [documented_net LayerKinds.documented_net net_with net_graph] in Hs2.
      rewrite EP in Hs2. rewrite <- EP in Hs2.
      unfold md_size, lk in *.
      apply (layer_code_ok N ninf q (md_last N md) (md_layer N md n) srcs k xs).
      + exact A.
      + apply all_some_spec in Hs2. apply (f_equal (@length Z)) in Hxs. rewrite !map_length in Hxs. lia.
      + eapply all_some_not_temp. exact Hs2.
      + eapply placed_ok; eauto.
      + lia.
      + rewrite Hxs. apply Forall_forall. intros v Hv. apply in_map_iff in Hv as (p & <- & Hp).
        assert (Hpi : In p (order s)) by (apply IO_run; eapply (links_closed g HL n p Hd); right; exact Hp).
        pose proof (size_le_l p Hpi). unfold md_size, lk in *. lia.
      + lia.
      + lia.
      + intros p Hp. apply (patches_le n p Hn Hp).
  Qed.

  Lemma last_in_run : In (last (order s) O) (order s).
  Proof.
    pose proof inp_in as Hi. apply IO_run in Hi.
    destruct (order s) as [|a l] eqn:E; [destruct Hi|]. rewrite <- E in *.
    rewrite (app_removelast_last O (l := order s)) at 2 by (rewrite E; discriminate).
    apply in_or_app. right. left. reflexivity.
  Qed.

  Lemma supported_output_correct : output_correct (documented_net md s) s.
  Proof.
    intros k m x Hk Hx Hm Ho.
    cbn [documented_net LayerKinds.documented_net net_with net_graph size output_code post] in *.
    pose proof last_in_run as Hl. set (n := last (order s) O) in *. pose proof (proj1 (IO_run n) Hl) as Hd.
    unfold md_output_code, md_post. fold n.
    assert (COPY : exists m', copy_c (Out k) NnOut (md_size N md n) m = Some m' /\ m' NnOut = x /\ only m m' NnOut).
    { destruct (copy_spec (Out k) NnOut (md_size N md n) m x) as (m' & E1 & O1 & Hh); auto; try discriminate; try lia.
      exists m'. split; [exact E1|]. split; [|exact O1]. apply holds_full; [exact Hh|]. destruct O1 as [O1 _]. lia. }
    destruct (out_channels N (lk N md n)) as [[[C H] W]|] eqn:EC; [|exact COPY].
    destruct (md_last N md); [|exact COPY].
    destruct (channels_size (md_layer N md n) (map (md_size N md) (previous_layer g n)) C H W) as (H1 & H2 & H3 & H4).
    { apply (sp_layers N md inp SP); [exact Hd|]. intros EP. destruct (source_kind n Hd EP) as [E|[w Ew]].
      - rewrite E in EC. destruct (sp_input N md inp SP) as [(? & ? & ? & EK & _)|(? & EK)]; rewrite EK in EC; discriminate.
      - rewrite Ew in EC. discriminate. }
    { exact EC. }
    fold (lk N md n) in H4. fold (md_size N md n) in H4.
    destruct (first_to_last_spec z (Out k) NnOut C H W m x) as (m' & E1 & O1 & Hh); auto; try discriminate; try lia.
    exists m'. split; [exact E1|]. split; [|exact O1]. apply holds_full; [exact Hh|].
    rewrite zlen_to_last by assumption. destruct O1 as [O1 _]. lia.
  Qed.

  Lemma model_inference_run (m : mem) val :
    declared (documented_net md s) s m -> evaluates (documented_net md s) (m NnIn) val ->
    exists m', inference (documented_net md s) s m = Some m' /\
      m' NnOut = md_post N md s (val (last (order s) O)) /\
      declared (documented_net md s) s m' /\ m' NnIn = m NnIn.
  Proof.
    intros D Hv. apply (inference_ok (documented_net md s) s HL RN (md_size N md inp) supported_layer_correct
      supported_output_correct m (m NnIn) val D).
    - exists []. symmetry. apply app_nil_r.
    - rewrite (D NnIn). unfold array_size. rewrite HH. reflexivity.
    - exact Hv.
  Qed.

  Lemma model_values_run x : exists val, evaluates (documented_net md s) x val.
  Proof. exact (evaluates_exists (documented_net md s) s HL RN x). Qed.

  (** A value of every layer has the declared size. *)
  Lemma model_python_run (x : list V) val : python_supported N md -> zlen x = md_size N md inp ->
    evaluates (documented_net md s) x val ->
    compute_inference (python_net md s) s x = Some (md_post N md s (val (last (order s) O))).
  Proof.
    intros [PA _] Hx Hv.
    apply (compute_inference_ok (python_net md s) s HL RN x val).
    intros n Hn. rewrite (Hv n Hn).
    cbn [python_net documented_net LayerKinds.python_net LayerKinds.documented_net net_with net_graph forward pre].
    destruct (previous_layer g n) as [|p0 ps0] eqn:EP.
    - unfold LayerKinds.meaning, meaning_with, py_forward. destruct (source_kind n Hn EP) as [->|[w Ew]].
      + destruct (sp_input N md inp SP) as [(? & ? & ? & EK & _)|(? & EK)]; unfold lk in EK; rewrite EK; reflexivity.
      + unfold lk in Ew. rewrite Ew. reflexivity.
    - rewrite <- EP. symmetry. apply forward_ok; [|apply PA; exact Hn].
      replace (map zlen (map val (previous_layer g n))) with (map (md_size N md) (previous_layer g n)).
      + apply (sp_layers N md inp SP); [exact Hn|]. rewrite EP. discriminate.
      + rewrite map_map. apply map_ext_in. intros p Hp. symmetry.
        assert (Hpi : In p (order s)) by (apply IO_run; eapply (links_closed g HL n p Hn); right; exact Hp).
        apply (val_size' (documented_net md s) s HL RN (md_size N md inp) supported_layer_correct x val Hx Hv p Hpi).
  Qed.
End Model.

(** The unoptimised order and allocation. *)
Section TriTopo.
  Context (N : num) (ninf : T N) (q : Q -> T N) (md : model N) (inp : nat) (s : schedule).
  Hypothesis SP : supported N md inp.
  Hypothesis HS : tri_topo (md_graph N md) = Some s.
  Lemma supported_runnable : runnable (md_graph N md) s.
  Proof. apply tri_topo_runnable; try apply SP; [|exact HS]. exact (HX N md inp SP). Qed.
  Lemma hd_is_input : hd O (order s) = inp.
  Proof.
    destruct (C02_input_first_and_no_exception (md_graph N md) inp) as (s' & tl & E & Ho & _); try apply SP.
    rewrite HS in E. injection E as <-. rewrite Ho. reflexivity.
  Qed.
  Lemma IO : forall n, In n (order s) <-> In n (dnn (md_graph N md)).
  Proof. exact (IO_run N ninf q md s supported_runnable). Qed.
  Lemma last_in : In (last (order s) O) (order s).
  Proof. exact (last_in_run N ninf q md inp s SP supported_runnable hd_is_input). Qed.
  Lemma model_inference_ok (m : mem (T N)) val :
    declared (documented_net N ninf q md s) s m -> evaluates (documented_net N ninf q md s) (m NnIn) val ->
    exists m', inference (documented_net N ninf q md s) s m = Some m' /\
      m' NnOut = md_post N md s (val (last (order s) O)) /\
      declared (documented_net N ninf q md s) s m' /\ m' NnIn = m NnIn.
  Proof. exact (model_inference_run N ninf q md inp s SP supported_runnable hd_is_input m val). Qed.
  Lemma model_values_exist x : exists val, evaluates (documented_net N ninf q md s) x val.
  Proof. exact (model_values_run N ninf q md inp s SP supported_runnable x). Qed.
  Lemma model_python_ok (x : list (T N)) val : python_supported N md -> zlen x = md_size N md inp ->
    evaluates (documented_net N ninf q md s) x val ->
    compute_inference (python_net N ninf q md s) s x = Some (md_post N md s (val (last (order s) O))).
  Proof. exact (model_python_run N ninf q md inp s SP supported_runnable hd_is_input x val). Qed.
End TriTopo.
