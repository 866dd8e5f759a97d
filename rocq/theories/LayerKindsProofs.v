(** * Every supported layer's code computes its documented function; the Python
    forward functions do too under [py_agrees]. *)
From Coq Require Import ZArith List Lia Bool QArith.
Import ListNotations.
From Verif Require Import CMem Tensor Num Activation Movement MovementProofs Linear LinearProofs Conv IndirectProofs Pooling PoolingProofs
  Pad Reduce ReduceProofs Resize ResizeProofs Graph GraphSpec Net NetProofs.
From Verif Require Broadcast BroadcastProofs PropertiesBroadcast.
From Verif Require Import PropertiesMovement PropertiesLinear PropertiesConv PropertiesActivation PropertiesPooling
  PropertiesPad PropertiesReduce PropertiesResize LayerKinds.
Open Scope Z_scope.

Lemma sequence_len {A} (l : list (option A)) : forall r, sequence l = Some r -> zlen r = zlen l.
Proof.
  induction l as [|o l IH]; intros r E; [injection E as <-; reflexivity|].
  cbn in E. destruct o; [|discriminate]. cbn in E. destruct (sequence l) as [r'|]; [|discriminate].
  cbn in E. injection E as <-. rewrite !zlen_cons. rewrite (IH r' eq_refl). reflexivity.
Qed.

Section KindsProofs.
  Context (N : num) (ninf : T N) (q : Q -> T N).
  Notation V := (T N).
  Notation mem := (mem V).
  Notation z := (n0 N).
  Notation gen_code := (gen_code N ninf q).
  Notation meaning := (meaning N ninf q).
  Notation meaning_with := (meaning_with N ninf q).
  Notation py_forward := (py_forward N ninf q).
  Notation accepts := (accepts N).
  Notation out_size := (out_size N).

  Lemma act_text a : act_supported N a ->
    forall v, c_value N (write_activation_str N a [TId 0]) (fun _ => v) = Some (compute N a v).
  Proof. intros [H|(R & O & A)] v; [apply C32_activation_exact|apply C32_activation]; assumption. Qed.

  Lemma c_act_compute a : act_supported N a -> forall v, c_act N a v = compute N a v.
  Proof. intros H v. unfold c_act. rewrite (act_text a H). reflexivity. Qed.

  Lemma layer_ok_weaken (code : mem -> option mem) srcs out t o t' o' r :
    layer_ok code srcs out t o r -> t <= t' -> o <= o' -> layer_ok code srcs out t' o' r.
  Proof. intros H Ht Ho m Hm H1 H2. apply H; [exact Hm|lia|lia]. Qed.

  Lemma layer_ok_eq (code : mem -> option mem) srcs out t o r r' :
    layer_ok code srcs out t o r -> r = r' -> layer_ok code srcs out t o r'.
  Proof. intros H <-. exact H. Qed.

  Lemma zlen_tab2 {A} H W (f : Z -> Z -> A) : 0 <= H -> 0 <= W -> zlen (tab2 H W f) = H * W.
  Proof. intros HH HW. unfold tab2. apply zlen_tab. nia. Qed.

  (** Only the values of the activation matter. *)
  Lemma meaning_ext l xs f g : accepts l (map zlen xs) -> (forall v, f v = g v) -> meaning_with f l xs = meaning_with g l xs.
  Proof.
    destruct l as [k a]. intros (_ & A) E. unfold meaning_with. cbn [lkind lact] in *.
    destruct k; destruct xs as [|x1 [|x2 [|x3 xs]]]; try reflexivity; try (apply map_ext; exact E).
    - apply tab_ext. intros k Hk. apply E.
    - destruct A as (_ & Hm & Hn & Hk & _). apply tab2_ext; try assumption. intros i j Hi Hj. apply E.
    - destruct A as (_ & H1 & H2 & H3 & _). apply tab3_ext; auto.
    - destruct A as (_ & H1 & H2 & H3 & _). apply tab3_ext; auto.
  Qed.

  (** Where the operands must be (Flatten and std_gemm work in their own array). *)
  Definition placed (k : kind N) (srcs : list bname) (out : bname) : Prop :=
    match k with
    | KFlatten _ _ _ _ _ => srcs = [out]
    | KConv _ StdGemmNN _ _ _ => (exists j, srcs = [Cst j]) \/ srcs = [out]
    | _ => True
    end.

  Lemma sum_shapes axis shapes (xs : list (list V)) : length shapes = length xs ->
    total axis (shaped_inputs N shapes xs) = fold_right (fun s a => let '(c, h, w) := s in dim c h w axis + a) 0 shapes.
  Proof.
    revert xs. induction shapes as [|[[c h] w] shapes IH]; intros [|x xs] HL; try discriminate; [reflexivity|].
    cbn in HL. unfold shaped_inputs. cbn [combine map]. cbn [total fold_right fst snd].
    fold (total axis (shaped_inputs N shapes xs)). unfold shaped_inputs in IH.
    rewrite <- (IH xs) by lia. reflexivity.
  Qed.

  Lemma shapes_fit axis OC OH OW shapes : forall xs : list (list V),
    map zlen xs = map (fun s => let '(c, h, w) := s in c * h * w) shapes ->
    Forall (fun s => let '(c, h, w) := s in 0 <= c /\ 0 <= h /\ 0 <= w /\
      (axis <> 1 -> c = OC) /\ (axis <> 2 -> h = OH) /\ (axis <> 3 -> w = OW)) shapes ->
    Forall (fits axis OC OH OW) (shaped_inputs N shapes xs).
  Proof.
    induction shapes as [|[[c h] w] shapes IH]; intros [|x xs] HL HF; try discriminate; [constructor|].
    cbn [map] in HL. injection HL as H1 H2. inversion HF as [|? ? HA HF']; subst. cbn beta iota in HA. destruct HA as (A1 & A2 & A3 & A4).
    unfold shaped_inputs. cbn [combine map fst snd]. constructor; [|apply IH; assumption].
    unfold fits. auto.
  Qed.

  Lemma len_shapes {A} (f : A -> Z) shapes (xs : list (list V)) : map zlen xs = map f shapes -> length shapes = length xs.
  Proof. intros H. apply (f_equal (@length Z)) in H. rewrite !map_length in H. auto. Qed.

  Lemma Forall_src1 (s : bname) (xs : list (list V)) (P : bname -> Prop) : Forall P [s] -> P s.
  Proof. intros H. inversion H. assumption. Qed.

  Ltac one xs srcs HI HL x s :=
    destruct xs as [|x [|? ?]]; try discriminate HI; destruct srcs as [|s [|? ?]]; try discriminate HL;
    cbn [map] in HI; injection HI as HI.

  Lemma layer_code_ok last l srcs k xs T O :
    accepts l (map zlen xs) -> length srcs = length xs -> Forall (fun b => b <> Temp) srcs -> placed (lkind N l) srcs (Out k) ->
    out_size (lkind N l) <= T -> Forall (fun n => n <= T) (map zlen xs) -> out_size (lkind N l) <= O -> 0 <= T ->
    (forall p, md_patches N (lkind N l) = Some p -> p <= O) ->
    zlen (meaning l xs) = out_size (lkind N l) /\
    layer_ok (gen_code last l srcs (Out k)) (combine srcs xs) (Out k) T O (meaning l xs).
  Proof.
    intros A HL HT HP H1 H2 H3 HT0 H4. pose proof A as (AS & B).
    pose proof (c_act_compute _ AS) as EA.
    assert (E : meaning l xs = meaning_with (c_act N (lact N l)) l xs).
    { unfold LayerKinds.meaning. apply meaning_ext; [exact A|]. intros v. symmetry. apply EA. }
    assert (NT : Out k <> Temp) by discriminate.
    destruct l as [kd a]. cbn [lkind lact] in *.
    destruct kd; cbn [lkind lact LayerKinds.gen_code LayerKinds.out_size] in *; try (destruct B; fail).
    - (* Activation *)
      destruct B as (HI & Hn). one xs srcs HI HL x s.
      split; [rewrite E; cbn; rewrite zlen_map; exact HI|].
      eapply layer_ok_weaken; [apply C32_activation_layer|exact HT0|exact H1 || exact H3]; auto. apply act_text. exact AS.
    - (* Dense *)
      destruct B as (HI & B1 & B2 & B3 & B4). one xs srcs HI HL x s. apply Forall_src1 in HT; [|exact []].
      rewrite E. split; [apply zlen_tab; assumption|].
      eapply layer_ok_weaken; [apply C11_dense|exact H1|exact H3]; auto.
    - (* MatMul *)
      destruct B as (HI & B1 & B2 & B3 & B4).
      destruct xs as [|x [|y [|? ?]]]; try discriminate HI. destruct srcs as [|s1 [|s2 [|? ?]]]; try discriminate HL.
      cbn [map] in HI. injection HI as HI1 HI2. inversion HT as [|? ? HT1 HT2]; subst. inversion HT2; subst.
      rewrite E. split; [cbn; rewrite zlen_map; apply zlen_tab3; assumption|].
      eapply layer_ok_weaken; [apply C12_matmul|exact H1|exact H3]; auto.
    - (* Gemm *)
      destruct B as (HI & B1 & B2 & B3 & B4 & B5 & B6). one xs srcs HI HL x s. apply Forall_src1 in HT; [|exact []].
      rewrite E. split; [apply zlen_tab2; assumption|].
      destruct B6 as [->|B6]; [eapply layer_ok_weaken; [apply C13_gemm_any_arithmetic|exact H1|exact H3]; auto|].
      eapply layer_ok_weaken; [apply C13_gemm|exact H1|exact H3]; auto.
    - (* BatchNorm *)
      destruct B as (HI & B1 & B2 & B3 & B4 & B5 & B6 & B7). one xs srcs HI HL x s.
      rewrite E. split; [cbn; rewrite zlen_map; apply zlen_tab2; nia|].
      eapply layer_ok_weaken; [apply C28_batch_normalisation|exact HT0|exact H3]; auto; nia.
    - (* Transpose *)
      destruct B as (HI & B1 & B2 & B3 & B4). one xs srcs HI HL x s. apply Forall_src1 in HT; [|exact []].
      rewrite E. destruct (C23_transpose V z s (Out k) C H W p1 p2 p3 (c_act N a) x) as (G1 & G2 & _); auto.
      split; [cbn; rewrite zlen_map; exact G2|]. eapply layer_ok_weaken; [exact G1|exact H1|exact H3].
    - (* Concat *)
      destruct B as (B1 & B2 & B3 & B4 & HI & B5 & B6). rewrite E.
      pose proof (len_shapes _ _ _ HI) as HLs.
      split; [cbn; rewrite zlen_map; destruct xs as [|? [|? ?]]; apply zlen_tab3; assumption|].
      set (ops := combine (operands srcs shapes) xs).
      assert (E1 : map fst ops = operands srcs shapes).
      { unfold ops. assert (LL : length (operands srcs shapes) = length xs).
        { unfold operands. rewrite map_length, combine_length. lia. }
        clear -LL. revert xs LL. induction (operands srcs shapes) as [|o os IH]; intros [|x xs] LL; try discriminate; [reflexivity|].
        cbn [combine map fst]. f_equal. apply IH. cbn in LL. lia. }
      assert (E2 : map (fun ox => (op_src (fst ox), snd ox)) ops = combine srcs xs).
      { unfold ops, operands. clear -HL HLs. revert srcs shapes HL HLs.
        induction xs as [|x xs IH]; intros [|s srcs] [|[[c h] w] shapes] HL HLs; try discriminate; [reflexivity|].
        cbn [combine map fst snd op_src]. f_equal. apply IH; cbn in *; lia. }
      assert (E3 : map (fun ox => shape_of (fst ox) (snd ox)) ops = shaped_inputs N shapes xs).
      { unfold ops, operands, shaped_inputs. clear -HL HLs. revert srcs shapes HL HLs.
        induction xs as [|x xs IH]; intros [|s srcs] [|[[c h] w] shapes] HL HLs; try discriminate; [reflexivity|].
        cbn [combine map fst snd]. f_equal. apply IH; cbn in *; lia. }
      eapply layer_ok_weaken; [|exact H1|exact H3].
      pose proof (C24_concatenate V z (Out k) axis OC OH OW (c_act N a) ops) as G.
      rewrite E1, E2, E3 in G.
      assert (RES : meaning_with (c_act N a) {| lkind := KConcat N axis OC OH OW shapes; lact := a |} xs
                    = map (c_act N a) (tab3 OC OH OW (slice_at z axis 0 (shaped_inputs N shapes xs)))).
      { destruct xs as [|? [|? ?]]; reflexivity. }
      rewrite RES.
      assert (GC : gen_code last {| lkind := KConcat N axis OC OH OW shapes; lact := a |} srcs (Out k)
                   = concat_c (Out k) axis OC OH OW (operands srcs shapes) (c_act N a)).
      { destruct srcs as [|? [|? ?]]; reflexivity. }
      assert (GD : layer_ok (concat_c (Out k) axis OC OH OW (operands srcs shapes) (c_act N a)) (combine srcs xs) (Out k)
                     (OC * OH * OW) (OC * OH * OW)
                     (map (c_act N a) (tab3 OC OH OW (slice_at z axis 0 (shaped_inputs N shapes xs))))).
      { apply G; auto.
        - unfold ops, operands. clear -HT. revert shapes xs. induction srcs as [|s srcs IH]; intros [|[[c h] w] shapes] [|x xs]; try constructor.
          + cbn. inversion HT; assumption.
          + apply IH. inversion HT; assumption.
        - apply shapes_fit; assumption.
        - rewrite sum_shapes by exact HLs. exact B6. }
      destruct srcs as [|? [|? ?]]; exact GD.
    - (* Gather *)
      destruct B as (HI & B1 & B2 & B3 & B4 & B5). one xs srcs HI HL x s. apply Forall_src1 in HT; [|exact []].
      rewrite E. pose proof (zlen_nonneg inds). split.
      { cbn. rewrite zlen_map. apply zlen_tab3; [destruct (axis =? 1)|destruct (axis =? 2)|destruct (axis =? 3)]; assumption. }
      eapply layer_ok_weaken; [apply C25_gather|exact H1|exact H3]; auto.
    - (* GatherElements *)
      destruct B as (HI & B1 & B2 & B3 & B4 & B5 & B6 & B7 & B8 & B9). one xs srcs HI HL x s. apply Forall_src1 in HT; [|exact []].
      rewrite E. split; [cbn; rewrite zlen_map; apply zlen_tab3; assumption|].
      eapply layer_ok_weaken; [eapply C25_gather_elements|exact H1|exact H3]; eauto.
    - (* Tile *)
      destruct B as (HI & B1 & B2 & B3 & B4 & B5 & B6). one xs srcs HI HL x s. apply Forall_src1 in HT; [|exact []].
      rewrite E. split; [cbn; rewrite zlen_map; apply zlen_tab3; nia|].
      eapply layer_ok_weaken; [apply C26_tile|exact H1|exact H3]; auto.
    - (* Flatten *)
      destruct B as (HI & B1 & B2 & B3). one xs srcs HI HL x s. cbn in HP. injection HP as ->.
      rewrite E. split.
      { cbn. destruct channels_last; [rewrite zlen_tab3 by assumption; ring|exact HI]. }
      eapply layer_ok_weaken; [apply C33_flatten_partial|exact H1|exact H3]; auto.
    - (* Conv *)
      destruct B as (HI & B0 & B1 & B2 & B3 & B4 & B5 & B6 & B7 & B8 & B9 & BI). one xs srcs HI HL x s.
      apply Forall_src1 in HT; [|exact []].
      assert (CD : conv_dims N c w b x) by (constructor; assumption).
      rewrite E. split; [cbn; unfold convolution; rewrite zlen_map; apply zlen_tab3; assumption|].
      destruct impl.
      + eapply layer_ok_weaken; [apply C14_six_loops|exact H1|exact H3]; auto.
      + destruct BI as (L1 & L2 & L3). cbn [md_patches] in H4. specialize (H4 _ eq_refl).
        inversion H2 as [|? ? H2' _]; subst.
        pose proof (C15_std_gemm_nn N L1 L2 (pred_cst s) (Out k) c w b (c_act N a) x NT) as G. cbv zeta in G.
        cbn in HP. destruct HP as [(j & EJ)|EJ]; injection EJ as ->.
        * eapply layer_ok_weaken; [apply G|rewrite <- HI; lia|lia]; auto. intros k0 [=]; subst. discriminate.
        * eapply layer_ok_weaken; [apply G|rewrite <- HI; lia|lia]; auto. intros k0 [=].
      + destruct BI as (L1 & L2 & L3 & L4). eapply layer_ok_weaken; [apply C17_indirect_gemm_nn|exact H1|exact H3]; auto.
    - (* MaxPool *)
      destruct B as (HI & B1 & B2 & B3 & B4). one xs srcs HI HL x s. apply Forall_src1 in HT; [|exact []].
      rewrite E. split; [apply zlen_tab3; assumption|].
      destruct (C20_pool_any_padding N ninf P s (Out k) (c_act N a) x NT HT ltac:(repeat split; assumption) HI) as (G & _).
      eapply layer_ok_weaken; [|exact H1|exact H3]. cbn [meaning_with LayerKinds.meaning_with lkind]. rewrite B4 in *. exact G.
    - (* AvgPool *)
      destruct B as (HI & B1 & B2 & B3 & B4). one xs srcs HI HL x s. apply Forall_src1 in HT; [|exact []].
      rewrite E. split; [apply zlen_tab3; assumption|].
      destruct (C20_pool_any_padding N ninf P s (Out k) (c_act N a) x NT HT ltac:(repeat split; assumption) HI) as (_ & G).
      eapply layer_ok_weaken; [|exact H1|exact H3]. cbn [meaning_with LayerKinds.meaning_with lkind]. rewrite B4 in *. exact G.
    - (* Pad *)
      destruct B as (HI & BP & BM). one xs srcs HI HL x s. apply Forall_src1 in HT; [|exact []].
      assert (LEN : zlen (meaning_with (c_act N a) {| lkind := KPad N mode C H W P; lact := a |} [x]) = pad_size C H W P).
      { cbn. rewrite zlen_map. pose proof BP as (? & ? & ? & ? & ? & ? & ? & ? & ?).
        unfold pad_size. destruct mode; cbn; unfold np_pad_constant, np_pad; apply zlen_tab3; lia. }
      rewrite E. split; [exact LEN|]. eapply layer_ok_weaken; [|exact H1|exact H3].
      assert (IDc : idempotent (compute N a) -> idempotent (c_act N a)).
      { intros I v. rewrite !EA. apply I. }
      destruct mode.
      + apply C22_constant_pad; auto.
      + apply C22_edge_pad; auto.
      + destruct BM as (BI & B2 & B3 & B4). apply C22_reflect_pad; auto; apply mirror_mirrored; assumption.
      + destruct BM as (BI & B2 & B3 & B4). apply C22_wrap_pad_partial; auto.
    - (* Broadcast *)
      destruct B as (B1 & B2 & HI & B3). rewrite E. pose proof (len_shapes _ _ _ HI) as HLs.
      assert (POS : 0 <= Broadcast.sC O0 /\ 0 <= Broadcast.sH O0 /\ 0 <= Broadcast.sW O0).
      { pose proof B2 as (P1 & P2 & (M1 & M1') & (M2 & M2') & (M3 & M3')). rewrite Forall_forall in P1.
        apply in_map_iff in M1. destruct M1 as (s1 & <- & I1). apply in_map_iff in M2. destruct M2 as (s2 & <- & I2).
        apply in_map_iff in M3. destruct M3 as (s3 & <- & I3).
        apply P1 in I1, I2, I3. destruct I1 as (? & ? & ?), I2 as (? & ? & ?), I3 as (? & ? & ?). lia. }
      destruct POS as (P1 & P2 & P3).
      assert (RES : meaning_with (c_act N a) {| lkind := KBroadcast N k0 shapes cst O0; lact := a |} xs
                    = BroadcastProofs.broadcast_result N k0 (combine shapes xs) cst O0 (c_act N a)).
      { destruct xs as [|? [|? ?]]; reflexivity. }
      rewrite RES. split; [unfold BroadcastProofs.broadcast_result; rewrite zlen_map; apply zlen_tab3; assumption|].
      eapply layer_ok_weaken; [|exact H1|exact H3].
      pose proof (PropertiesBroadcast.C27_broadcast N k0 (@combine bname (Broadcast.tensor N) srcs (combine shapes xs)) cst (Out k) O0 (c_act N a) NT) as G.
      assert (F1 : map (BroadcastProofs.op_shape N) (@combine bname (Broadcast.tensor N) srcs (combine shapes xs)) = combine srcs shapes).
      { clear -HL HLs. revert srcs shapes HL HLs. induction xs as [|x xs IH]; intros [|s srcs] [|sh shapes] HL HLs; try discriminate; [reflexivity|].
        cbn [combine map]. f_equal. apply IH; cbn in *; lia. }
      assert (F2 : map (BroadcastProofs.op_src N) (@combine bname (Broadcast.tensor N) srcs (combine shapes xs)) = combine srcs xs).
      { clear -HL HLs. revert srcs shapes HL HLs. induction xs as [|x xs IH]; intros [|s srcs] [|sh shapes] HL HLs; try discriminate; [reflexivity|].
        cbn [combine map]. f_equal. apply IH; cbn in *; lia. }
      assert (F3 : map snd (@combine bname (Broadcast.tensor N) srcs (combine shapes xs)) = combine shapes xs).
      { clear -HL HLs. revert srcs shapes HL HLs. induction xs as [|x xs IH]; intros [|s srcs] [|sh shapes] HL HLs; try discriminate; [reflexivity|].
        cbn [combine map]. f_equal. apply IH; cbn in *; lia. }
      assert (F4 : map fst (combine shapes xs) = shapes).
      { clear -HLs. revert shapes HLs. induction xs as [|x xs IH]; intros [|sh shapes] HLs; try discriminate; [reflexivity|].
        cbn [combine map]. f_equal. apply IH; cbn in *; lia. }
      rewrite F1, F2, F3 in G.
      assert (GD : layer_ok (Broadcast.broadcast_c N k0 (combine srcs shapes) cst (Out k) O0 (c_act N a)) (combine srcs xs) (Out k)
                     (Broadcast.sC O0 * Broadcast.sH O0 * Broadcast.sW O0) (Broadcast.sC O0 * Broadcast.sH O0 * Broadcast.sW O0)
                     (BroadcastProofs.broadcast_result N k0 (combine shapes xs) cst O0 (c_act N a))).
      { apply G; auto.
        - destruct shapes as [|sh shapes]; [congruence|]. destruct xs; [discriminate|]. destruct srcs; [discriminate|]. discriminate.
        - clear -HT. revert shapes xs. induction srcs as [|s srcs IH]; intros [|sh shapes] [|x xs]; try constructor.
          + cbn. inversion HT; assumption.
          + apply IH. inversion HT; assumption.
        - rewrite F4. exact B2.
        - clear -HI. revert shapes HI. induction xs as [|x xs IH]; intros [|sh shapes] HI; try discriminate; try constructor.
          + cbn in HI. injection HI as HI _. exact HI.
          + apply IH. cbn in HI. injection HI as _ HI. exact HI. }
      destruct srcs as [|? [|? ?]]; exact GD.
    - (* Reduce *)
      destruct B as (HI & B1 & B2 & B3 & B4). one xs srcs HI HL x s. apply Forall_src1 in HT; [|exact []].
      rewrite E. split.
      { cbn. rewrite zlen_map. unfold reduce_py. pose proof B4 as (_ & B5 & _).
        replace (empty_axes axes && noop) with false; [|destruct axes; [rewrite (B5 eq_refl)|]; reflexivity].
        apply zlen_tab3; unfold red_dim; destruct (_ || _); lia. }
      eapply layer_ok_weaken; [apply C30_reduce|exact H1|exact H3]; auto.
    - (* Softmax *)
      destruct B as (HI & B1 & B2 & B3 & B4 & B5). one xs srcs HI HL x s. apply Forall_src1 in HT; [|exact []].
      subst a. unfold LayerKinds.meaning. cbn [lact lkind LayerKinds.meaning_with].
      assert (MID : map (compute N LinearAct) (softmax_py N C H W axis x) = softmax_py N C H W axis x) by apply map_id.
      rewrite MID. split.
      { unfold softmax_py. destruct (one_dimension C H W); [rewrite !zlen_map; exact HI|apply zlen_tab3; lia]. }
      eapply layer_ok_weaken; [|exact H1|exact H3]. apply (C29_softmax N s (Out k) C H W axis x); auto.
    - (* Nearest *)
      destruct B as (HI & B1 & B2 & B3 & B4). one xs srcs HI HL x s. apply Forall_src1 in HT; [|exact []].
      destruct (C31_nearest_partial N z nm s (Out k) p (c_act N a) x NT HT B1 HI B2 B3 B4) as (kx & ky & _ & _ & EP & G).
      rewrite E. cbn [LayerKinds.meaning_with lkind]. rewrite EP. cbn [or_nil]. split.
      { rewrite zlen_map. pose proof B1 as (? & ? & ? & ? & ? & ? & ?). apply zlen_tab3; assumption. }
      eapply layer_ok_weaken; [exact G|exact H1|exact H3].
    - (* Linear *)
      destruct B as (HI & B1 & B2 & B3 & B4 & B5 & B6). one xs srcs HI HL x s. apply Forall_src1 in HT; [|exact []].
      destruct (C51_linear_partial N q z s (Out k) p (c_act N a) x NT HT B1 B2 B3 B4 B5 B6 HI) as (code & y & EC & EP & G).
      rewrite E. cbn [LayerKinds.meaning_with lkind]. rewrite EP, EC. cbn [or_nil]. split.
      { rewrite zlen_map. apply sequence_len in EP. rewrite EP. apply zlen_tab3; assumption. }
      eapply layer_ok_weaken; [exact G|exact H1|exact H3].
    - (* Cubic *)
      destruct B as (HI & R & B1 & B2 & B3 & B4 & B5 & B6 & B7). one xs srcs HI HL x s. apply Forall_src1 in HT; [|exact []].
      destruct (C51_cubic_partial N q z a0 s (Out k) p (c_act N a) x R NT HT B1 B2 B3 B4 B5 B6 B7 HI) as (code & y & EC & EP & G).
      rewrite E. cbn [LayerKinds.meaning_with lkind]. rewrite EP, EC. cbn [or_nil]. split.
      { rewrite zlen_map. apply sequence_len in EP. rewrite EP. apply zlen_tab3; assumption. }
      eapply layer_ok_weaken; [exact G|exact H1|exact H3].
  Qed.

  Lemma concat_py axis OC OH OW shapes (f : V -> V) xs : shapes <> [] -> concat_supported axis OC OH OW shapes (map zlen xs) ->
    map f (np_concat_list N axis (shaped_inputs N shapes xs)) = map f (tab3 OC OH OW (slice_at z axis 0 (shaped_inputs N shapes xs))).
  Proof.
    intros NE (B1 & B2 & B3 & B4 & HI & B5 & B6). f_equal. pose proof (len_shapes _ _ _ HI) as HLs.
    pose proof (shapes_fit axis OC OH OW shapes xs HI B5) as HF.
    assert (HD : dim OC OH OW axis = total axis (shaped_inputs N shapes xs)) by (rewrite sum_shapes by exact HLs; exact B6).
    destruct (shaped_inputs N shapes xs) as [|x0 r] eqn:ES.
    - exfalso. destruct shapes as [|[[c h] w] shapes]; [congruence|]. destruct xs; discriminate.
    - unfold np_concat_list. rewrite (C24_concatenate_python V z axis OC OH OW x0 r B1 B2 B3 B4 HF HD). reflexivity.
  Qed.

  Lemma broadcast_py_ok k shapes cst o act xs :
    broadcast_supported N shapes cst o (map zlen xs) ->
    k <> Broadcast.BAvg /\ (k = Broadcast.BMax \/ k = Broadcast.BMin -> 2 <= zlen shapes) /\
        (BroadcastProofs.needs_full_first k = true -> zlen shapes = 1 \/ hd_error shapes = Some o) /\
        (cst <> None -> BroadcastProofs.uses_constant k = true) /\
        (cst = None -> BroadcastProofs.uses_constant k = true -> forall v, Broadcast.bop N k v (Broadcast.neutral N k) = v) ->
    or_nil N (Broadcast.broadcast_py N k (combine shapes xs) cst act) = BroadcastProofs.broadcast_result N k (combine shapes xs) cst o act.
  Proof.
    intros (B1 & B2 & HI & B3) (P1 & P2 & P3 & P4 & P5). pose proof (len_shapes _ _ _ HI) as HLs.
    assert (F4 : map fst (combine shapes xs) = shapes).
    { clear -HLs. revert shapes HLs. induction xs as [|x xs IH]; intros [|sh shapes] HLs; try discriminate; [reflexivity|].
      cbn [combine map]. f_equal. apply IH; cbn in *; lia. }
    assert (WS : Forall (Broadcast.well_shaped N) (combine shapes xs)).
    { clear -HI. revert shapes HI. induction xs as [|x xs IH]; intros [|sh shapes] HI; try discriminate; try constructor.
      + cbn in HI. injection HI as HI _. exact HI.
      + apply IH. cbn in HI. injection HI as _ HI. exact HI. }
    destruct shapes as [|s0 shapes]; [congruence|]. destruct xs as [|x0 xs]; [discriminate|].
    cbn [combine] in *. 
    rewrite (PropertiesBroadcast.C27_broadcast_python N k (s0, x0) (combine shapes xs) cst o act); [reflexivity|..].
    - change (map fst ((s0, x0) :: combine shapes xs)) with (map fst ((s0, x0) :: combine shapes xs)).
      pose proof B2 as B2'. rewrite <- F4 in B2'. exact B2'.
    - exact WS.
    - exact B3.
    - intros NF. destruct (P3 NF) as [L1|L1].
      + left. rewrite zlen_cons in L1. destruct shapes; [reflexivity|]. rewrite zlen_cons in L1. pose proof (zlen_nonneg shapes). lia.
      + right. cbn in L1. injection L1 as ->. reflexivity.
    - exact P4.
    - exact P5.
  Qed.

  Lemma linear_id (y : list V) : map (compute N LinearAct) y = y.
  Proof. apply map_id. Qed.

  Lemma forward_ok l xs : accepts l (map zlen xs) -> py_agrees N l -> py_forward l xs = meaning l xs.
  Proof.
    destruct l as [kd a]. intros (AS & B) PA. unfold LayerKinds.py_forward, LayerKinds.meaning, LayerKinds.meaning_with.
    unfold py_agrees in PA. cbn [lkind lact] in *.
    destruct kd; try (destruct B; fail); destruct xs as [|x [|y [|w3 xs]]]; try reflexivity; cbn [map] in B.
    - (* MatMul *) destruct B as (_ & B1 & B2 & B3 & B4). apply C12_matmul_python; assumption.
    - (* Gemm *) apply C13_gemm_python.
    - (* BatchNorm *) destruct B as (_ & B1 & B2 & B3 & _). apply C28_batch_normalisation_python; [assumption|assumption|nia].
    - (* Transpose *) subst a. symmetry. apply linear_id.
    - (* Concat *)
      destruct B as (_ & _ & _ & _ & HI & _). destruct shapes; [congruence|discriminate].
    - eapply concat_py; eassumption.
    - eapply (concat_py _ _ _ _ _ _ [x; y]); eassumption.
    - eapply (concat_py _ _ _ _ _ _ (x :: y :: w3 :: xs)); eassumption.
    - (* Gather *) subst a. rewrite linear_id. destruct B as (_ & B1 & _). unfold np_take.
      destruct (Z.eqb_spec axis 1) as [->|]; [reflexivity|]. destruct (Z.eqb_spec axis 2) as [->|]; [reflexivity|].
      destruct (Z.eqb_spec axis 3); [reflexivity|lia].
    - (* GatherElements *) subst a. rewrite linear_id. destruct B as (_ & B1 & B2 & B3 & B4 & _). unfold gather_elements_py.
      apply tab3_ext; auto. intros f i j Hf Hi Hj. cbv zeta.
      destruct (Z.eqb_spec axis 1) as [->|]; [reflexivity|]. destruct (Z.eqb_spec axis 2) as [->|]; [reflexivity|].
      destruct (Z.eqb_spec axis 3); [reflexivity|lia].
    - (* Tile *) subst a. symmetry. apply linear_id.
    - (* Conv *) destruct PA as (M & D). destruct B as (HI & B0 & B1 & B2 & B3 & B4 & B5 & B6 & B7 & B8 & B9 & _).
      injection HI as HI. apply C14_python; [exact M|constructor; assumption|exact D].
    - (* MaxPool *) destruct PA as (-> & PA0 & PA1 & PA2 & PA3 & PA4). destruct B as (_ & B1 & B2 & B3 & _).
      unfold max_pool_py. apply tab3_ext; auto. intros c i j Hc Hi Hj. cbn [compute].
      rewrite py_window_unpadded by (auto; lia). unfold image. rewrite PA1, PA2. reflexivity.
    - (* AvgPool *) destruct PA as (-> & PA0 & PA1 & PA2 & PA3 & PA4). destruct B as (_ & B1 & B2 & B3 & _).
      unfold avg_pool_py. apply tab3_ext; auto. intros c i j Hc Hi Hj. cbn [compute].
      rewrite py_window_unpadded by (auto; lia). unfold image. rewrite PA1, PA2. reflexivity.
    - (* Broadcast *)
      destruct B as (B1 & B2 & HI & B3). destruct shapes; [congruence|discriminate].
    - eapply (broadcast_py_ok _ _ _ _ _ [x]); eassumption.
    - eapply (broadcast_py_ok _ _ _ _ _ [x; y]); eassumption.
    - eapply (broadcast_py_ok _ _ _ _ _ (x :: y :: w3 :: xs)); eassumption.
    - (* Reduce *) subst a. symmetry. apply linear_id.
    - (* Softmax *) subst a. symmetry. apply linear_id.
    - (* Nearest *) subst a. symmetry. apply linear_id.
    - (* Linear *) subst a. symmetry. apply linear_id.
    - (* Cubic *) subst a. symmetry. apply linear_id.
  Qed.
End KindsProofs.
