(** * The value of a fused layer. *)
From Coq Require Import ZArith List Lia Bool QArith Ring.
Import ListNotations.
From Verif Require Import CMem Tensor Num Activation Conv ConvHWCProofs Pooling Pad Graph Net LayerKinds Pattern.
From Verif Require Import PropertiesPad PropertiesActivation.
From Verif Require Broadcast BroadcastProofs.
Open Scope Z_scope.

Section Values.
  Context (N : num) (ninf : T N) (q : Q -> T N).
  Notation V := (T N).
  Notation z := (n0 N).

  (** The layers whose emitted code applies activation [a] to each element of
      what it computes without activation. *)
  Definition absorbs (k : kind N) (a : activation N) : Prop :=
    match k with
    | KInput4 _ _ _ _ | KInput _ _ | KConstant _ _ | KActivation _ _ | KFlatten _ _ _ _ _ | KSoftmax _ _ _ _ _ => False
    | KPad _ (PadConstant _ _) _ _ _ _ => True
    | KPad _ _ _ _ _ _ => idempotent (compute N a)
    | _ => True
    end.

  Lemma compute_linear : compute N LinearAct = (fun v => v).
  Proof. reflexivity. Qed.

  Lemma fused_activation_meaning p a n xs : absorbs (lkind N p) a -> lact N p = LinearAct ->
    meaning N ninf q (mkLayer N (lkind N p) a) xs = meaning N ninf q (mkLayer N (KActivation N n) a) [meaning N ninf q p xs].
  Proof.
    destruct p as [k ap]. cbn [lkind lact]. intros AB ->. unfold meaning. cbn [lact]. rewrite compute_linear.
    set (f := compute N a). unfold meaning_with at 2. cbn [lkind].
    assert (ID : forall l : list V, map (fun v : V => v) l = l) by (intros; apply map_id).
    destruct k; cbn [absorbs] in AB; try contradiction; unfold meaning_with; cbn [lkind];
      try (destruct xs as [|x [|y [|? ?]]]; try reflexivity);
      unfold convolution, BroadcastProofs.broadcast_result, tab2, tab3;
      rewrite ?ID, ?map_tab; try reflexivity.
  Qed.

  Lemma fused_activation_accepts p a ins : absorbs (lkind N p) a -> accepts N p ins ->
    act_supported N a -> accepts N (mkLayer N (lkind N p) a) ins.
  Proof.
    intros AB (_ & B) A. split.
    - exact A.
    - cbn [lkind lact]. destruct p as [k ap]. cbn [lkind lact] in *. destruct k; cbn [absorbs] in AB; try contradiction; try exact B.
      destruct mode; try exact B; destruct B as (B1 & B2 & B3); cbn [lact] in *.
      + auto.
      + destruct B3 as (_ & B3). auto.
      + destruct B3 as (_ & B3). auto.
  Qed.

  (** ** Convolution followed by batch normalisation *)
  Section ConvBN.
    Context (F : field_laws N).
    Add Ring NRing : (num_ring_theory N (fl_ring N F)).

    Lemma fused_conv_bn_meaning impl c w b scale mean var bias eps act x :
      0 <= ic c -> 0 <= kh c -> 0 <= kw c -> 0 <= nf c -> 0 <= oh c -> 0 <= ow c ->
      meaning_with N ninf q act (mkLayer N (KConv N impl c (fused_weights N c w scale var eps) (fused_biases N c b scale mean var bias eps)) LinearAct) [x] =
      meaning_with N ninf q act (mkLayer N (KBatchNorm N (nf c) (oh c) (ow c) scale mean var bias eps) LinearAct)
        [meaning_with N ninf q (fun v => v) (mkLayer N (KConv N impl c w b) LinearAct) [x]].
    Proof.
      intros Hic Hkh Hkw Hnf Hoh How. unfold meaning_with. cbn [lkind]. unfold convolution. rewrite map_id. f_equal.
      unfold tab3 at 1. unfold tab2. rewrite Z.mul_assoc. apply tab_ext. intros k Hk.
      destruct (split3_range _ _ _ _ Hk Hnf Hoh How) as (P1 & P2 & P3 & R1 & R2 & R3).
      set (f := k / (oh c * ow c)) in *. set (i := (k / ow c) mod oh c) in *. set (j := k mod ow c) in *.
      assert (EA : forall l : list V, at2 z (oh c * ow c) l f (k mod (oh c * ow c)) = at3 z (oh c) (ow c) l f i j).
      { intros l. unfold at2, at3. f_equal. subst f i j. rewrite idx3_join by lia.
        pose proof (Z.div_mod k (oh c * ow c) ltac:(nia)). lia. }
      rewrite EA, at3_tab3 by assumption.
      set (S1 := nsum3 (ic c) (kh c) (kw c) _).
      set (S2 := nsum3 (ic c) (kh c) (kw c) _).
      set (al := bn_alpha N scale var eps f).
      assert (ES : S1 = nmul N al S2).
      { subst S1 S2. unfold nsum3. rewrite (nsum_mul_l N (fl_ring N F)). apply nsum_ext. intros e He.
        destruct (split3_range _ _ _ _ He Hic Hkh Hkw) as (Q1 & Q2 & Q3 & T1 & T2 & T3).
        set (p := e / (kh c * kw c)) in *. set (h := (e / kw c) mod kh c) in *. set (w_ := e mod kw c) in *.
        assert (EW : at3 z (kh c) (kw c) (fused_weights N c w scale var eps) (p + ic c * f) h w_ =
                     nmul N al (at3 z (kh c) (kw c) w (p + ic c * f) h w_)).
        { unfold at3, fused_weights.
          assert (RI : 0 <= idx3 (kh c) (kw c) (p + ic c * f) h w_ < (nf c * ic c) * kh c * kw c).
          { apply idx3_range; [|assumption|assumption]. nia. }
          rewrite nthZ_tab by lia. f_equal. subst al. f_equal. unfold idx3.
          replace (w_ + kw c * (h + kh c * (p + ic c * f))) with (idx3 (kh c) (kw c) p h w_ + f * (ic c * kh c * kw c)) by (unfold idx3; ring).
          rewrite Z.div_add by nia. rewrite Z.div_small; [lia|]. apply idx3_range; assumption. }
        rewrite EW. ring. }
      assert (EB : nthZ z (fused_biases N c b scale mean var bias eps) f =
        nadd N (nmul N al (nthZ z b f)) (nsub N (nthZ z bias f) (nmul N (nthZ z mean f) al))).
      { unfold fused_biases. rewrite nthZ_tab by assumption. reflexivity. }
      rewrite EB, ES. rewrite (mul_comm N (fl_ring N F) (nthZ z scale f)), (div_mul N F). fold (bn_alpha N scale var eps f). fold al. ring.
    Qed.

    Lemma fused_conv_bn_accepts impl c w b scale mean var bias eps a ins : act_supported N a ->
      conv_supported N impl c w b -> ins = [ic c * ih c * iw c] ->
      accepts N (mkLayer N (KConv N impl c (fused_weights N c w scale var eps) (fused_biases N c b scale mean var bias eps)) a) ins.
    Proof.
      intros HA (H1 & H2 & H3 & H4 & H5 & H6 & H7 & H8 & H9 & H10 & H11) HI. split; [exact HA|]. cbn [lkind].
      split; [exact HI|]. unfold conv_supported. do 8 (split; [assumption|]).
      split; [unfold fused_weights; apply zlen_tab; nia|]. split; [unfold fused_biases; apply zlen_tab; assumption|]. exact H11.
    Qed.
  End ConvBN.
End Values.
