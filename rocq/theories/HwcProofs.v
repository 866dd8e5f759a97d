(** * The program generated in channels_last order. *)
From Coq Require Import ZArith List Lia Bool QArith.
Import ListNotations.
From Verif Require Import CMem Tensor Num Activation Movement MovementProofs Conv ConvProofs ConvHWC ConvHWCProofs Pooling PoolingProofs PoolingHWCProofs
  PropertiesPooling PropertiesConvHWC Graph GraphSpec GraphProofs GraphProofs3 Net NetProofs LayerKinds LayerKindsProofs ModelProofs HwcNet HwcLemmas.
From Verif Require Broadcast BroadcastProofs.
Open Scope Z_scope.

Section HwcProofs.
  Context (N : num) (ninf : T N) (q : Q -> T N) (half : T N).
  Notation V := (T N).
  Notation mem := (mem V).
  Notation z := (n0 N).
  Notation meaning := (meaning N ninf q).
  Notation documented_net := (documented_net N ninf q).
  Notation hwc_net := (hwc_net N ninf q half).
  Notation hwc_code := (hwc_code N ninf q half).

  Context (md : model N) (inp : nat) (s : schedule) (impl : nat -> himpl V) (shape : nat -> option (Z * Z * Z)).
  Hypothesis FL : field_laws N.
  Hypothesis HF : nadd N half half = n1 N.
  Hypothesis SP : supported N md inp.
  Hypothesis CL : in_channels_last N md impl shape.
  Hypothesis RN : runnable (md_graph N md) s.
  Hypothesis HH : hd O (order s) = inp.
  Notation g := (md_graph N md).
  Let RL : ring_laws N := fl_ring N FL.

  (** The functions of the code, between the arrays it works on. *)
  Definition hwc_forward (n : nat) (xs : list (list V)) : list V :=
    let l := md_layer N md n in
    match impl n, lkind N l, xs with
    | Unchanged, _, _ => meaning l xs
    | DirectBlock, KConv _ _ c w b, [x] => convolution_hwc N c w b (compute N (lact N l)) x
    | DepthwiseBlock w, KConv _ _ c _ b, [x] => depthwise_hwc N c w b (compute N (lact N l)) x
    | PoolLast, KMaxPool _ P, [x] =>
        tab3 (p_OH P) (p_OW P) (p_C P) (fun i j c => fold_left (np_maximum N) (hwc_window N P x c i j) ninf)
    | PoolLast, KAvgPool _ P, [x] =>
        tab3 (p_OH P) (p_OW P) (p_C P) (fun i j c =>
          nmul N (fold_left (nadd N) (hwc_window N P x c i j) z) (ndiv N (n1 N) (nofZ N (p_size P * p_size P))))
    | _, _, _ => []
    end.
  Definition hwc_pre (x : list V) : list V :=
    match lk N md (hd O (order s)) with
    | KInput4 _ C H W => if md_last N md then x else to_last z C H W x
    | _ => x
    end.
  Definition hwc_post (x : list V) : list V :=
    match out_channels N (lk N md (last (order s) O)) with
    | Some (C, H, W) => if md_last N md then x else to_first z C H W x
    | None => x
    end.
  Definition aux_net : network V :=
    mkNet (md_graph N md) (md_size N md) (fun n => md_patches N (lk N md n))
      (fun n => match lk N md n with KConcat _ _ _ _ _ _ => true | _ => false end)
      (hwc_code md impl) hwc_forward hwc_pre hwc_post (hwc_output_code N md s).

  Lemma IOr : forall n, In n (order s) <-> In n (dnn g).
  Proof. exact (IO_run N ninf q md s RN). Qed.

  (** Only convolutions and poolings have another implementation. *)
  Lemma impl_source n : In n (dnn g) -> previous_layer g n = [] -> impl n = Unchanged.
  Proof.
    intros Hn Hp. pose proof (hl_layer N md impl shape CL n Hn) as A. cbv zeta in A.
    assert (K : (exists C H W, lk N md n = KInput4 N C H W) \/ (exists k, lk N md n = KInput N k) \/ (exists w, lk N md n = KConstant N w)).
    { destruct (source_kind N md inp SP n Hn Hp) as [->|K]; [|eauto].
      destruct (sp_input N md inp SP) as [(C & H & W & E & _)|(k & E)]; eauto 6. }
    destruct (impl n); [reflexivity| | |].
    - destruct A as (c & w & b & A & _). destruct K as [(? & ? & ? & K)|[(? & K)|(? & K)]]; rewrite K in A; discriminate.
    - destruct A as (c & b & A & _). destruct K as [(? & ? & ? & K)|[(? & K)|(? & K)]]; rewrite K in A; discriminate.
    - destruct A as (_ & P & _ & _ & _ & [A|(A & _)]); destruct K as [(? & ? & ? & K)|[(? & K)|(? & K)]]; rewrite K in A; discriminate.
  Qed.

  Lemma one_source (ps : list nat) srcs (xs : list (list V)) n0 : map zlen xs = map (md_size N md) ps -> map (md_size N md) ps = [n0] ->
    all_some (map (output_str s) ps) = Some srcs -> exists x b, xs = [x] /\ srcs = [b] /\ zlen x = n0 /\ b <> Temp.
  Proof.
    intros H1 H2 H3. rewrite H2 in H1. destruct ps as [|p [|? ?]]; try discriminate. destruct xs as [|x [|? ?]]; try discriminate.
    injection H1 as H1. pose proof (all_some_not_temp s [p] srcs H3) as NT. cbn in H3. destruct (output_str s p) as [b|]; [|discriminate]. injection H3 as <-.
    exists x, b. inversion NT; subst. auto.
  Qed.

  Lemma aux_layer_correct : layer_correct aux_net s (md_size N md inp).
  Proof.
    intros n srcs k Hn Hs Hk. pose proof (proj1 (IOr n) Hn) as Hd.
    pose proof (supported_layer_correct N ninf q md inp s SP RN HH n srcs k Hn Hs Hk) as OLD.
    pose proof (size_le_l N ninf q md s n Hn) as HSn. pose proof (l_le_temp N ninf q md inp s HH) as HT; pose proof (l_le_path N ninf q md inp s HH) as HPp.
    pose proof (l_size_nonneg N ninf q md s) as H0.
    change (temp_size aux_net s) with (temp_size (documented_net md s) s) in *.
    change (path_size aux_net s) with (path_size (documented_net md s) s) in *.
    cbn [documented_net LayerKinds.documented_net net_with aux_net net_graph size forward pre code] in OLD |- *.
    destruct (previous_layer g n) as [|p0 ps0] eqn:EP.
    - intros x Hx. specialize (OLD x Hx). unfold sources in Hs. cbn [aux_net net_graph] in Hs. rewrite EP in Hs. injection Hs as <-.
      pose proof (impl_source n Hd EP) as EI. unfold hwc_forward, HwcNet.hwc_code. rewrite EI.
      destruct (source_kind N md inp SP n Hd EP) as [->|[w Ew]].
      + assert (Epre : hwc_pre = fun x => match lk N md inp with
           | KInput4 _ C H W => if md_last N md then x else to_last z C H W x | _ => x end).
        { unfold hwc_pre. rewrite HH. reflexivity. }
        rewrite Epre. unfold md_size, lk in *. unfold LayerKinds.meaning, meaning_with in *.
        destruct (sp_input N md inp SP) as [(C & H & W & EK & HC0 & HH0 & HW0)|(n0 & EK)]; unfold lk in EK; rewrite EK in *; cbn [out_size] in *.
        * destruct (md_last N md).
          -- split; [exact Hx|]. intros m HM HTm HOm. apply holds_src1 in HM.
             destruct (copy_spec NnIn (Out k) (C * H * W) m x) as (m' & E1 & O1 & Hh); auto; try discriminate; try lia.
             exists m'. split; [exact E1|]. split; [exact Hh|]. split; [intros b; apply (only_zlen m m' (Out k) b O1)|].
             intros b _ Hb. apply O1. exact Hb.
          -- split; [apply zlen_to_last; assumption|]. intros m HM HTm HOm. apply holds_src1 in HM.
             destruct (first_to_last_spec z NnIn (Out k) C H W m x) as (m' & E1 & O1 & Hh); auto; try discriminate; try lia.
             exists m'. split; [exact E1|]. split; [exact Hh|]. split; [intros b; apply (only_zlen m m' (Out k) b O1)|].
             intros b _ Hb. apply O1. exact Hb.
        * assert (Epre2 : md_pre N md s = fun x => x). { unfold md_pre. rewrite HH. unfold lk. rewrite EK. reflexivity. }
          rewrite Epre2 in OLD. exact OLD.
      + unfold LayerKinds.meaning, meaning_with, lk in *. rewrite Ew in *. exact OLD.
    - rewrite <- EP in OLD |- *. intros xs Hxs.
      assert (NE : previous_layer g n <> []) by (rewrite EP; discriminate).
      assert (OLD' : forall xs, map zlen xs = map (md_size N md) (previous_layer g n) ->
         zlen (meaning (md_layer N md n) xs) = md_size N md n /\
         layer_ok (gen_code N ninf q (md_last N md) (md_layer N md n) srcs (Out k)) (combine srcs xs) (Out k)
           (temp_size (documented_net md s) s) (path_size (documented_net md s) s) (meaning (md_layer N md n) xs)).
      { rewrite EP in OLD. rewrite EP. exact OLD. }
      clear OLD. pose proof (sp_layers N md inp SP n Hd NE) as A.
      assert (Hs2 : all_some (map (output_str s) (previous_layer g n)) = Some srcs).
      { unfold sources in Hs. cbn [aux_net net_graph] in Hs. rewrite EP in Hs |- *. exact Hs. }
      pose proof (hl_layer N md impl shape CL n Hd) as B. cbv zeta in B.
      unfold hwc_forward, HwcNet.hwc_code. destruct (impl n) as [| |w|].
      + (* Unchanged *)
        replace (match lkind N (md_layer N md n) with KInput4 _ C H W => _ | _ => _ end) with (gen_code N ninf q (md_last N md) (md_layer N md n) srcs (Out k)).
        { apply OLD'. exact Hxs. }
        destruct A as (_ & A). destruct (lkind N (md_layer N md n)); try reflexivity. destruct A.
      + (* DirectBlock *)
        destruct B as (c & w & b & EK & _ & _ & E1 & E2 & E3 & E4 & E5). unfold lk in EK. destruct A as (AS & A). rewrite EK in A. rewrite EK.
        destruct A as (HI & A1 & A2 & A3 & A4 & A5 & A6 & A7 & A8 & A9 & A10 & A11).
        destruct (one_source _ _ _ _ Hxs HI Hs2) as (x & sb & -> & -> & Hz & HNT). clear OLD'.
        unfold md_size, lk in *. rewrite EK in *. cbn [out_size combine] in *.
        split; [unfold convolution_hwc; apply zlen_to_last; assumption|].
        assert (BK : 0 < block_k c) by (unfold block_k; destruct (1 <? kw c); lia).
        unfold direct_code. rewrite (proj2 (Z.eqb_eq _ _) E1), (proj2 (Z.eqb_eq _ _) E2), (proj2 (Z.eqb_eq _ _) E4). cbn [andb].
        assert (EQ : convolution_hwc N c w b (compute N (lact N (md_layer N md n))) x = convolution_hwc N c w b (c_act N (lact N (md_layer N md n))) x).
        { unfold convolution_hwc, convolution. f_equal. apply map_ext. intros v. symmetry. apply c_act_compute. exact AS. }
        rewrite EQ.
        assert (CD : conv_dims N c w b x) by (constructor; assumption).
        destruct ((nf c =? 1) && (ic c =? 1)) eqn:E6; [|destruct (uses_winograd c) eqn:E7].
        * apply andb_true_iff in E6. destruct E6 as [E6 E7]. apply Z.eqb_eq in E6, E7.
          rewrite <- (depthwise_one N RL) by assumption.
          eapply layer_ok_weaken; [apply (C49_depthwise N RL)|lia|lia]; auto; try discriminate; try congruence.
        * destruct (E5 eq_refl) as (E8 & E9). unfold uses_winograd in E7. rewrite !andb_true_iff, !Z.eqb_eq in E7. destruct E7 as (((? & ?) & ?) & ?).
          eapply layer_ok_weaken; [apply (C18_winograd_even_partial N RL half HF)|lia|lia]; auto; try discriminate.
        * eapply layer_ok_weaken; [apply (C49_direct_block N RL)|lia|lia]; auto; try discriminate.
      + (* DepthwiseBlock *)
        destruct B as (c & b & EK & _ & _ & E1 & E2 & E3). unfold lk in EK. destruct A as (AS & A). rewrite EK in A. rewrite EK.
        destruct A as (HI & A1 & A2 & A3 & A4 & A5 & A6 & A7 & A8 & A9 & A10 & A11).
        destruct (one_source _ _ _ _ Hxs HI Hs2) as (x & sb & -> & -> & Hz & HNT). clear OLD'.
        unfold md_size, lk in *. rewrite EK in *. cbn [out_size combine] in *.
        split; [unfold depthwise_hwc; apply zlen_to_last; assumption|].
        unfold depthwise_code. rewrite (proj2 (Z.eqb_eq _ _) E1), (proj2 (Z.eqb_eq _ _) E2), (proj2 (Z.eqb_eq _ _) E3). cbn [andb].
        assert (EQ : depthwise_hwc N c w b (compute N (lact N (md_layer N md n))) x = depthwise_hwc N c w b (c_act N (lact N (md_layer N md n))) x).
        { unfold depthwise_hwc. f_equal. apply map_ext. intros v. symmetry. apply c_act_compute. exact AS. }
        rewrite EQ. eapply layer_ok_weaken; [apply (C49_depthwise N RL)|lia|lia]; auto; try discriminate; try congruence.
      + (* PoolLast *)
        destruct B as (EA & P & _ & _ & PA & EK). rewrite EA. destruct A as (AS & A). unfold lk in EK.
        assert (SO : sizes_ok P) by (unfold sizes_ok; destruct PA as (? & ? & ? & ? & ? & ? & ? & ? & ? & ? & ? & ? & ?); lia).
        pose proof SO as (S1 & S2 & S3).
        assert (HI : map (md_size N md) (previous_layer g n) = [p_C P * p_IH P * p_IW P]).
        { destruct EK as [EK|(EK & _)]; rewrite EK in A; apply A. }
        destruct (one_source _ _ _ _ Hxs HI Hs2) as (x & sb & -> & -> & Hz & HNT). clear OLD'.
        assert (Hz' : zlen x = p_IH P * p_IW P * p_C P) by lia.
        unfold md_size, lk in *. destruct EK as [EK|(EK & _)]; rewrite EK in *; cbn [out_size combine] in *.
        * split; [rewrite zlen_tab3 by assumption; lia|].
          eapply layer_ok_weaken; [apply hwc_max_ok|lia|lia]; auto; discriminate.
        * split; [rewrite zlen_tab3 by assumption; lia|].
          eapply layer_ok_weaken; [apply hwc_avg_ok|lia|lia]; auto; discriminate.
  Qed.

  Lemma aux_output_correct : output_correct aux_net s.
  Proof.
    intros k m x Hk Hx Hm Ho. cbn [aux_net size output_code post] in *.
    pose proof (last_in_run N ninf q md inp s SP RN HH) as Hl. set (n := last (order s) O) in *. pose proof (proj1 (IOr n) Hl) as Hd.
    unfold hwc_output_code, hwc_post. fold n.
    assert (COPY : exists m', copy_c (Out k) NnOut (md_size N md n) m = Some m' /\ m' NnOut = x /\ only m m' NnOut).
    { destruct (copy_spec (Out k) NnOut (md_size N md n) m x) as (m' & E1 & O1 & Hh); auto; try discriminate; try lia.
      exists m'. split; [exact E1|]. split; [|exact O1]. apply holds_full; [exact Hh|]. destruct O1 as [O1 _]. lia. }
    destruct (out_channels N (lk N md n)) as [[[C H] W]|] eqn:EC; [|exact COPY].
    destruct (md_last N md); [exact COPY|].
    destruct (channels_size N (md_layer N md n) (map (md_size N md) (previous_layer g n)) C H W) as (H1 & H2 & H3 & H4).
    { apply (sp_layers N md inp SP); [exact Hd|]. intros EP. destruct (source_kind N md inp SP n Hd EP) as [E|[w Ew]].
      - rewrite E in EC. destruct (sp_input N md inp SP) as [(? & ? & ? & EK & _)|(? & EK)]; rewrite EK in EC; discriminate.
      - rewrite Ew in EC. discriminate. }
    { exact EC. }
    fold (lk N md n) in H4. fold (md_size N md n) in H4.
    destruct (last_to_first_spec z (Out k) NnOut C H W m x) as (m' & E1 & O1 & Hh); auto; try discriminate; try lia.
    exists m'. split; [exact E1|]. split; [|exact O1]. apply holds_full; [exact Hh|].
    rewrite zlen_to_first by assumption. destruct O1 as [O1 _]. lia.
  Qed.

  (** ** The values, in channels_last order *)
  Definition lay (n : nat) (v : list V) : list V :=
    match shape n with Some (C, H, W) => to_last z C H W v | None => v end.

  Lemma lay_flat n v : In n (dnn g) -> flat (shape n) -> zlen v = md_size N md n -> lay n v = v.
  Proof.
    intros Hn F Hz. unfold lay. pose proof (hl_shape N md impl shape CL n) as S. destruct (shape n) as [[[C H] W]|]; [|reflexivity].
    destruct (S C H W Hn eq_refl) as (H1 & H2 & H3 & H4). apply flat_to_last; auto; lia.
  Qed.

  Lemma map_lay_flat ps (val : nat -> list V) : (forall p, In p ps -> In p (dnn g)) -> Forall (fun p => flat (shape p)) ps ->
    (forall p, In p ps -> zlen (val p) = md_size N md p) -> map (fun p => lay p (val p)) ps = map val ps.
  Proof.
    intros H1 H2 H3. rewrite Forall_forall in H2. apply map_ext_in. intros p Hp. apply lay_flat; auto.
  Qed.

  Lemma one_prev ps (val : nat -> list V) k : map (md_size N md) ps = [k] -> exists p, ps = [p] /\ md_size N md p = k.
  Proof. intros H. destruct ps as [|p [|? ?]]; try discriminate. injection H as H. eauto. Qed.

  Lemma compat n (val : nat -> list V) : In n (dnn g) -> previous_layer g n <> [] ->
    (forall p, In p (previous_layer g n) -> zlen (val p) = md_size N md p) ->
    zlen (meaning (md_layer N md n) (map val (previous_layer g n))) = md_size N md n ->
    (forall P p v, impl n = PoolLast -> lk N md n = KMaxPool N P -> In p (previous_layer g n) -> In v (val p) -> nlt N ninf v = true) ->
    hwc_forward n (map (fun p => lay p (val p)) (previous_layer g n)) = lay n (meaning (md_layer N md n) (map val (previous_layer g n))).
  Proof.
    intros Hd NE HZ HZn HM. set (ps := previous_layer g n) in *.
    assert (Hps : forall p, In p ps -> In p (dnn g)).
    { intros p Hp. eapply (links_closed g (HL N md inp SP) n p Hd). right. exact Hp. }
    pose proof (sp_layers N md inp SP n Hd NE) as A. fold ps in A. pose proof (hl_layer N md impl shape CL n Hd) as B. cbv zeta in B. fold ps in B.
    assert (FLAT : flat (shape n) /\ Forall (fun p => flat (shape p)) ps -> impl n = Unchanged ->
      hwc_forward n (map (fun p => lay p (val p)) ps) = lay n (meaning (md_layer N md n) (map val ps))).
    { intros (F1 & F2) EI. rewrite map_lay_flat by auto. unfold hwc_forward. rewrite EI. symmetry. apply lay_flat; assumption. }
    destruct (impl n) as [| |w|] eqn:EI.
    - pose proof A as (_ & A2). unfold lk in B. destruct (lkind N (md_layer N md n)) eqn:EK; try (apply FLAT; [exact B|reflexivity]).
      + destruct A2.
      + (* activation *)
        destruct A2 as (HI & Hk). destruct (one_prev ps val _ HI) as (p & Ep & Esz). rewrite Ep in *. cbn [map] in *.
        unfold hwc_forward, LayerKinds.meaning, meaning_with. rewrite EI, EK. unfold lay. rewrite (Forall_inv B).
        pose proof (hl_shape N md impl shape CL p) as S. rewrite (Forall_inv B) in S.
        destruct (shape n) as [[[C H] W]|]; [|reflexivity]. destruct (S C H W (Hps p (or_introl eq_refl)) eq_refl) as (H1 & H2 & H3 & H4).
        symmetry. apply map_to_last; auto. rewrite HZ by (left; reflexivity). lia.
      + (* element-wise *)
        destruct B as [B|(S1 & S2 & S3)]; [apply FLAT; [exact B|reflexivity]|].
        destruct A2 as (_ & AS & HI & WS).
        assert (OP : 0 <= Broadcast.sC O /\ 0 <= Broadcast.sH O /\ 0 <= Broadcast.sW O).
        { destruct (hl_shape N md impl shape CL n _ _ _ Hd S1) as (? & ? & ? & _). auto. }
        destruct OP as (O1 & O2 & O3).
        assert (EM : forall xs, meaning (md_layer N md n) xs = BroadcastProofs.broadcast_result N k (combine shapes xs) cst O (compute N (lact N (md_layer N md n)))).
        { intros xs. unfold LayerKinds.meaning, meaning_with. rewrite EK. destruct xs as [|? [|? ?]]; reflexivity. }
        unfold hwc_forward. rewrite EI, !EM. unfold lay at 2. rewrite S1. apply broadcast_between; auto.
        clear - S1 S2 HZ HI Hps CL SP RN HH FL HF. clearbody ps. revert HI. induction S2 as [|p sh l l' Hp _ IH]; intros HI; [constructor|].
        cbn [map combine] in *. injection HI as H1 H2. constructor; [|apply IH; auto with datatypes].
        cbn [fst snd]. destruct Hp as [(-> & E)|(-> & F)].
        * right. split; [reflexivity|]. split; [reflexivity|]. rewrite HZ by (left; reflexivity). split; [exact H1|].
          unfold lay. rewrite E, S1. reflexivity.
        * left. split; [|reflexivity]. f_equal. symmetry. apply lay_flat; auto with datatypes.
    - destruct B as (c & w & b & EK & S1 & S2 & _). destruct A as (_ & A). unfold lk in EK. rewrite EK in A. destruct A as (HI & A1 & A2 & A3 & _).
      destruct (one_prev ps val _ HI) as (p & Ep & Esz). rewrite Ep in *. cbn [map].
      unfold hwc_forward, LayerKinds.meaning, meaning_with. rewrite EI, EK. unfold lay. rewrite S2, (S1 p (or_introl eq_refl)).
      apply convolution_between; auto. rewrite HZ by (left; reflexivity). exact Esz.
    - destruct B as (c & b & EK & S1 & S2 & E1 & E2 & E3). destruct A as (_ & A). unfold lk in EK. rewrite EK in A. destruct A as (HI & A1 & A2 & A3 & A4 & A5 & A6 & A7 & A8 & _).
      destruct (one_prev ps val _ HI) as (p & Ep & Esz). rewrite Ep in *. cbn [map].
      unfold hwc_forward, LayerKinds.meaning, meaning_with. rewrite EI, EK. unfold lay. rewrite S2, (S1 p (or_introl eq_refl)).
      apply (depthwise_between N RL); auto. rewrite HZ by (left; reflexivity). exact Esz.
    - destruct B as (EA & P & S1 & S2 & PA & EK). destruct A as (_ & A). unfold lk in EK.
      assert (HI : map (md_size N md) ps = [p_C P * p_IH P * p_IW P] /\ pool_supported P).
      { destruct EK as [EK|(EK & _)]; rewrite EK in A; exact A. }
      destruct HI as (HI & PS). destruct (one_prev ps val _ HI) as (p & Ep & Esz). rewrite Ep in *. cbn [map].
      destruct PS as (_ & _ & _ & PS).
      unfold hwc_forward, LayerKinds.meaning, meaning_with. rewrite EI. destruct EK as [EK|(EK & E1 & E2 & E3 & E4)]; rewrite EK, EA;
        unfold lay; rewrite S2, (S1 p (or_introl eq_refl)).
      + apply max_between; auto; [rewrite HZ by (left; reflexivity); exact Esz|]. intros v Hv. apply (HM P p v eq_refl EK (or_introl eq_refl) Hv).
      + apply (avg_between N FL); auto. rewrite HZ by (left; reflexivity); exact Esz.
  Qed.

  Lemma lay_values x val : evaluates (documented_net md s) x val -> zlen x = md_size N md inp ->
    (forall n P p v, In n (dnn g) -> impl n = PoolLast -> lk N md n = KMaxPool N P -> In p (previous_layer g n) -> In v (val p) -> nlt N ninf v = true) ->
    evaluates aux_net x (fun n => lay n (val n)).
  Proof.
    intros Hv Hx HM n Hn. cbn [aux_net net_graph forward pre] in *. pose proof (Hv n Hn) as E.
    cbn [documented_net LayerKinds.documented_net net_with net_graph forward pre] in E.
    assert (SZ : forall p, In p (dnn g) -> zlen (val p) = md_size N md p).
    { intros p Hp. apply (val_size' (documented_net md s) s (HL N md inp SP) RN (md_size N md inp) (supported_layer_correct N ninf q md inp s SP RN HH) x val Hx Hv).
      apply IOr. exact Hp. }
    destruct (previous_layer g n) as [|p0 ps0] eqn:EP.
    - rewrite E. unfold hwc_forward. rewrite (impl_source n Hn EP).
      pose proof (hl_layer N md impl shape CL n Hn) as B. cbv zeta in B. rewrite (impl_source n Hn EP) in B.
      destruct (source_kind N md inp SP n Hn EP) as [->|[w Ew]].
      + unfold hwc_pre, md_pre. rewrite HH. unfold LayerKinds.meaning, meaning_with.
        destruct (sp_input N md inp SP) as [(C & H & W & EK & HC0 & HH0 & HW0)|(n0 & EK)]; unfold md_size, lk in *; rewrite EK in *; cbn [out_size] in *.
        * unfold lay. rewrite B. destruct (md_last N md); [apply to_last_to_first; assumption|reflexivity].
        * apply lay_flat; [exact Hn|apply B|]. unfold md_size, lk. rewrite EK. exact Hx.
      + unfold LayerKinds.meaning, meaning_with, lk in *. rewrite Ew in *. apply lay_flat; [exact Hn|apply B|]. unfold md_size, lk. rewrite Ew. reflexivity.
    - rewrite <- EP in E |- *. assert (NE : previous_layer g n <> []) by (rewrite EP; discriminate).
      assert (E' : val n = meaning (md_layer N md n) (map val (previous_layer g n))) by (rewrite EP in E |- *; exact E).
      rewrite E'. symmetry. 
      assert (E2 : (match previous_layer g n with [] => [hwc_pre x] | _ :: _ => map (fun n => lay n (val n)) (previous_layer g n) end) = map (fun n => lay n (val n)) (previous_layer g n)).
      { rewrite EP. reflexivity. }
      apply compat; auto.
      + intros p Hp. apply SZ. eapply (links_closed g (HL N md inp SP) n p Hn). right. exact Hp.
      + rewrite <- E'. apply SZ. exact Hn.
      + intros P p v H1 H2 H3 H4. eapply HM; eauto.
  Qed.

  Lemma last_no_next : next_layer g (last (order s) O) = [] -> forall val, zlen val = md_size N md (last (order s) O) ->
    hwc_post (lay (last (order s) O) val) = md_post N md s val.
  Proof.
    intros NX val Hz. pose proof (last_in_run N ninf q md inp s SP RN HH) as Hl. apply IOr in Hl. set (n := last (order s) O) in *.
    unfold hwc_post, md_post. fold n. pose proof (hl_shape N md impl shape CL n) as S.
    assert (CS : forall C H W, out_channels N (lk N md n) = Some (C, H, W) -> 0 <= C /\ 0 <= H /\ 0 <= W /\ C * H * W = md_size N md n).
    { intros C H W EC. unfold md_size, lk. apply (channels_size N (md_layer N md n) (map (md_size N md) (previous_layer g n)) C H W); [|exact EC].
      apply (sp_layers N md inp SP); [exact Hl|]. intros EP. destruct (source_kind N md inp SP n Hl EP) as [E|[w Ew]].
      - rewrite E in EC. destruct (sp_input N md inp SP) as [(? & ? & ? & EK & _)|(? & EK)]; rewrite EK in EC; discriminate.
      - rewrite Ew in EC. discriminate. }
    destruct (hl_output N md impl shape CL n Hl NX) as [E|(F1 & F2)].
    - unfold lay. rewrite E. destruct (out_channels N (lk N md n)) as [[[C H] W]|]; [|reflexivity].
      destruct (CS C H W eq_refl) as (H1 & H2 & H3 & H4). destruct (md_last N md); [reflexivity|]. apply to_first_to_last; auto; lia.
    - rewrite lay_flat by assumption. destruct (out_channels N (lk N md n)) as [[[C H] W]|]; [|reflexivity].
      destruct (CS C H W eq_refl) as (H1 & H2 & H3 & H4). cbn [flat] in F2.
      destruct (md_last N md); [symmetry; apply flat_to_last|apply flat_to_first]; auto; lia.
  Qed.

  Lemma hwc_inference_ok (m : mem) val : next_layer g (last (order s) O) = [] ->
    declared (hwc_net md impl s) s m -> evaluates (documented_net md s) (m NnIn) val ->
    (forall n P p v, In n (dnn g) -> impl n = PoolLast -> lk N md n = KMaxPool N P -> In p (previous_layer g n) -> In v (val p) -> nlt N ninf v = true) ->
    exists m', inference (hwc_net md impl s) s m = Some m' /\ m' NnOut = md_post N md s (val (last (order s) O)).
  Proof.
    intros NX D Hv HM.
    assert (Hx : zlen (m NnIn) = md_size N md inp) by (rewrite (D NnIn); unfold array_size; rewrite HH; reflexivity).
    destruct (inference_ok aux_net s (HL N md inp SP) RN (md_size N md inp) aux_layer_correct aux_output_correct m (m NnIn) (fun n => lay n (val n)) D)
      as (m' & E & EO & _); auto.
    - exists []. symmetry. apply app_nil_r.
    - apply lay_values; assumption.
    - exists m'. split; [exact E|]. rewrite EO. apply last_no_next; [exact NX|].
      apply (val_size' (documented_net md s) s (HL N md inp SP) RN (md_size N md inp) (supported_layer_correct N ninf q md inp s SP RN HH) (m NnIn) val Hx Hv).
      exact (last_in_run N ninf q md inp s SP RN HH).
  Qed.
End HwcProofs.
