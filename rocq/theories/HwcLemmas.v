(** * Layers between channels_last tensors compute the layers between channels_first ones. *)
From Coq Require Import ZArith List Lia Bool QArith.
Import ListNotations.
From Verif Require Import CMem Tensor Num Activation Movement MovementProofs Conv ConvProofs ConvHWC ConvHWCProofs Pooling PoolingProofs PoolingHWCProofs
  PropertiesPooling Graph GraphSpec Net LayerKinds HwcNet.
From Verif Require Broadcast BroadcastProofs.
Open Scope Z_scope.

Lemma at3_map {A B} (g : A -> B) da db C H W x c h w : zlen x = C * H * W -> 0 <= c < C -> 0 <= h < H -> 0 <= w < W ->
  at3 db H W (map g x) c h w = g (at3 da H W x c h w).
Proof. intros Hz Hc Hh Hw. unfold at3. apply nthZ_map. rewrite Hz. apply idx3_range; assumption. Qed.

Section Lemmas.
  Context (N : num) (ninf : T N).
  Notation V := (T N).
  Notation z := (n0 N).

  Lemma flat_to_last C H W (x : list V) : 0 <= C -> 0 <= H -> 0 <= W -> C = 1 \/ H * W = 1 -> zlen x = C * H * W ->
    to_last z C H W x = x.
  Proof.
    intros HC HH HW F Hz. rewrite to_last_flat by assumption. transitivity (tab (zlen x) (nthZ z x)); [|symmetry; apply tab_nthZ]. rewrite Hz. apply tab_ext.
    intros k Hk. unfold at3. f_equal. unfold idx3. destruct F as [->|F].
    - rewrite Z.mod_1_r, Z.div_1_r. rewrite !Z.mul_1_l in Hk. rewrite Z.mul_1_r.
      assert (0 < W) by nia. pose proof (Z.div_mod k W ltac:(lia)). lia.
    - assert (H = 1 /\ W = 1) as [-> ->] by (assert (0 < H) by nia; assert (0 < W) by nia; nia).
      rewrite !Z.mul_1_l, !Z.mul_1_r in *. rewrite !Z.div_small, Z.mod_1_r by lia. rewrite Z.mod_small by lia. lia.
  Qed.
  Lemma flat_to_first C H W (x : list V) : 0 <= C -> 0 <= H -> 0 <= W -> C = 1 \/ H * W = 1 -> zlen x = C * H * W ->
    to_first z C H W x = x.
  Proof.
    intros HC HH HW F Hz. rewrite <- (flat_to_last C H W x HC HH HW F Hz) at 1. apply to_first_to_last; assumption.
  Qed.
  Lemma map_to_last (f : V -> V) C H W x : 0 <= C -> 0 <= H -> 0 <= W -> zlen x = C * H * W ->
    to_last z C H W (map f x) = map f (to_last z C H W x).
  Proof.
    intros HC HH HW Hz. unfold to_last. rewrite map_tab3. apply tab3_ext; [assumption..|]. intros h w c Hh Hw Hc.
    apply (at3_map f z z C); assumption.
  Qed.
  Lemma to_last_tab3 C H W (f : Z -> Z -> Z -> V) : 0 <= C -> 0 <= H -> 0 <= W ->
    to_last z C H W (tab3 C H W f) = tab3 H W C (fun h w c => f c h w).
  Proof.
    intros HC HH HW. unfold to_last. apply tab3_ext; [assumption..|]. intros h w c Hh Hw Hc. rewrite at3_tab3 by assumption. reflexivity.
  Qed.

  (** ** Convolution *)
  Lemma convolution_between c w b act x : 0 <= ic c -> 0 <= ih c -> 0 <= iw c -> zlen x = ic c * ih c * iw c ->
    convolution_hwc N c w b act (to_last z (ic c) (ih c) (iw c) x) = to_last z (nf c) (oh c) (ow c) (convolution N c w b act x).
  Proof. intros. unfold convolution_hwc. rewrite to_first_to_last by assumption. reflexivity. Qed.

  Lemma nsum_single (L : ring_laws N) n k (f : Z -> V) : 0 <= k < n -> (forall i, 0 <= i < n -> i <> k -> f i = z) -> nsum N n f = f k.
  Proof.
    intros Hk HZ. replace n with (k + (1 + (n - k - 1))) by lia.
    rewrite nsum_split by (exact L || lia). rewrite (nsum_zero N L k) by (intros i Hi; apply HZ; lia).
    rewrite nsum_split by (exact L || lia). rewrite (nsum_zero N L (n - k - 1)) by (intros i Hi; apply HZ; lia).
    change 1 with (0 + 1). rewrite nsum_succ by lia. rewrite nsum_0 by lia. rewrite Z.add_0_r.
    rewrite (add_0_l N L), (add_0_r N L), (add_0_l N L). reflexivity.
  Qed.

  Lemma depthwise_between (L : ring_laws N) c w b act x : 0 <= ic c -> 0 <= ih c -> 0 <= iw c -> 0 <= oh c -> 0 <= ow c -> 0 <= kh c -> 0 <= kw c ->
    nf c = ic c -> dilation c = 1 -> zlen x = ic c * ih c * iw c ->
    depthwise_hwc N c w b act (to_last z (ic c) (ih c) (iw c) x) =
    to_last z (nf c) (oh c) (ow c) (convolution N c (diagonal N c w) b act x).
  Proof.
    intros H1 H2 H3 H4 H5 H6 H7 E D Hz. unfold depthwise_hwc. cbv zeta. rewrite to_first_to_last by assumption.
    unfold convolution. do 2 f_equal. apply tab3_ext; [lia..|]. intros f i j Hf Hi Hj. f_equal.
    rewrite !nsum3_nest by (exact L || lia).
    rewrite (nsum_single L (ic c) f); [|lia|].
    - change 1 with (0 + 1) at 1. rewrite nsum_succ by lia. rewrite nsum_0 by lia. rewrite (add_0_l N L).
      apply nsum_ext. intros h Hh. apply nsum_ext. intros w_ Hw. rewrite D, !Z.mul_1_r. f_equal.
      unfold diagonal. rewrite at3_tab3 by nia. rewrite <- E.
      replace ((f + nf c * f) / nf c) with f by (rewrite Z.mul_comm, Z.div_add by lia; rewrite Z.div_small by lia; lia).
      replace ((f + nf c * f) mod nf c) with f by (rewrite Z.mul_comm, Z.mod_add by lia; rewrite Z.mod_small by lia; reflexivity).
      rewrite Z.eqb_refl. reflexivity.
    - intros p Hp NE. apply (nsum_zero N L). intros h Hh. apply (nsum_zero N L). intros w_ Hw.
      unfold diagonal. rewrite at3_tab3 by nia. rewrite <- E.
      replace ((p + nf c * f) / nf c) with f by (rewrite Z.mul_comm, Z.div_add by lia; rewrite Z.div_small by lia; lia).
      replace ((p + nf c * f) mod nf c) with p by (rewrite Z.mul_comm, Z.mod_add by lia; rewrite Z.mod_small by lia; reflexivity).
      destruct (Z.eqb_spec f p); [lia|]. apply (mul_0_r N L).
  Qed.

  (** One filter on one channel: depth-wise code for an ordinary convolution. *)
  Lemma depthwise_one (L : ring_laws N) c w b act x : nf c = 1 -> ic c = 1 -> dilation c = 1 ->
    0 <= oh c -> 0 <= ow c -> 0 <= kh c -> 0 <= kw c ->
    depthwise_hwc N c w b act x = convolution_hwc N c w b act x.
  Proof.
    intros E1 E2 D H4 H5 H6 H7. unfold depthwise_hwc, convolution_hwc, convolution. cbv zeta. rewrite E2. do 2 f_equal.
    apply tab3_ext; [lia..|]. intros f i j Hf Hi Hj. f_equal. rewrite !nsum3_nest by (exact L || lia).
    apply nsum_ext. intros p Hp. apply nsum_ext. intros h Hh. apply nsum_ext. intros w_ Hw.
    rewrite D, !Z.mul_1_r. assert (f = 0) as -> by lia. assert (p = 0) as -> by lia. reflexivity.
  Qed.

  (** ** Pooling *)
  Lemma window_ext (g1 g2 : Z -> Z -> V) IH IW size stride t l i j :
    (forall a b, 0 <= a < IH -> 0 <= b < IW -> g1 a b = g2 a b) ->
    window g1 IH IW size stride t l i j = window g2 IH IW size stride t l i j.
  Proof.
    intros E. unfold window. apply flat_map_ext. intros h. apply flat_map_ext. intros w. cbv zeta.
    destruct (_ && _ && _ && _) eqn:B; [|reflexivity]. rewrite !andb_true_iff, !Z.leb_le, !Z.ltb_lt in B.
    rewrite E by lia. reflexivity.
  Qed.
  Lemma window_in (g : Z -> Z -> V) IH IW size stride t l i j v : In v (window g IH IW size stride t l i j) ->
    exists a b, 0 <= a < IH /\ 0 <= b < IW /\ v = g a b.
  Proof.
    intros Hv. unfold window in Hv. apply in_flat_map in Hv. destruct Hv as (h & Hh & Hv).
    apply in_flat_map in Hv. destruct Hv as (w & Hq & Hv). cbv zeta in Hv.
    match type of Hv with In _ (if ?b then _ else _) => destruct b eqn:B end; [|destruct Hv].
    destruct Hv as [<-|[]]. rewrite !andb_true_iff, !Z.leb_le, !Z.ltb_lt in B. eexists _, _. split; [|split; [|reflexivity]]; lia.
  Qed.
  Lemma hwc_window_image P x c i j : p_top P = p_left P -> 0 <= c < p_C P -> 0 <= p_IH P -> 0 <= p_IW P ->
    hwc_window N P (to_last z (p_C P) (p_IH P) (p_IW P) x) c i j =
    window (image z P x c) (p_IH P) (p_IW P) (p_size P) (p_stride P) (p_top P) (p_left P) i j.
  Proof.
    intros E Hc H1 H2. unfold hwc_window. rewrite E. apply window_ext. intros a b Ha Hb. unfold hwc_get, image, to_last.
    rewrite at3_tab3 by assumption. reflexivity.
  Qed.
  Lemma at3_in C H W (x : list V) c h w : zlen x = C * H * W -> 0 <= c < C -> 0 <= h < H -> 0 <= w < W -> In (at3 z H W x c h w) x.
  Proof.
    intros Hz Hc Hh Hw. unfold at3, nthZ. destruct (rdl_some x (idx3 H W c h w)) as (u & Eu).
    - rewrite Hz. apply idx3_range; assumption.
    - rewrite Eu. unfold rdl in Eu. destruct (_ <? 0); [discriminate|]. eapply nth_error_In; eauto.
  Qed.
  Lemma max_between P x : pool_accepts P -> p_top P = p_left P -> zlen x = p_C P * p_IH P * p_IW P -> (forall v, In v x -> nlt N ninf v = true) ->
    tab3 (p_OH P) (p_OW P) (p_C P) (fun i j c => fold_left (np_maximum N) (hwc_window N P (to_last z (p_C P) (p_IH P) (p_IW P) x) c i j) ninf) =
    to_last z (p_C P) (p_OH P) (p_OW P) (tab3 (p_C P) (p_OH P) (p_OW P) (fun f i j => np_amax N ninf
          (window (image z P x f) (p_IH P) (p_IW P) (p_size P) (p_stride P) (p_top P) (p_left P) i j))).
  Proof.
    intros A E Hz Hi. pose proof A as (HC & HIH & HIW & _ & _ & _ & _ & _ & _ & _ & _ & HOH & HOW).
    rewrite to_last_tab3 by lia. apply tab3_ext; [lia..|]. intros i j c Hi' Hj Hc.
    rewrite hwc_window_image by (assumption || lia).
    pose proof (window_nonempty (image z P x c) P i j A Hi' Hj) as NE.
    assert (LT : forall v, In v (window (image z P x c) (p_IH P) (p_IW P) (p_size P) (p_stride P) (p_top P) (p_left P) i j) -> nlt N ninf v = true).
    { intros v Hv. apply window_in in Hv. destruct Hv as (a & b & Ha & Hb & ->). apply Hi. apply (at3_in (p_C P)); assumption. }
    destruct (window _ _ _ _ _ _ _ _ _) as [|v l]; [congruence|]. cbn [fold_left np_amax].
    unfold np_maximum at 2. rewrite (LT v) by (left; reflexivity). reflexivity.
  Qed.
  Lemma avg_between (F : field_laws N) P x : pool_accepts P -> p_top P = 0 -> p_left P = 0 -> p_bottom P = 0 -> p_right P = 0 ->
    zlen x = p_C P * p_IH P * p_IW P ->
    tab3 (p_OH P) (p_OW P) (p_C P) (fun i j c => nmul N (fold_left (nadd N) (hwc_window N P (to_last z (p_C P) (p_IH P) (p_IW P) x) c i j) z)
        (ndiv N (n1 N) (nofZ N (p_size P * p_size P)))) =
    to_last z (p_C P) (p_OH P) (p_OW P) (tab3 (p_C P) (p_OH P) (p_OW P) (fun f i j => np_mean N
          (window (image z P x f) (p_IH P) (p_IW P) (p_size P) (p_stride P) (p_top P) (p_left P) i j))).
  Proof.
    intros A E1 E2 E3 E4 Hz. pose proof A as (HC & HIH & HIW & _ & _ & _ & _ & _ & _ & _ & _ & HOH & HOW).
    rewrite to_last_tab3 by lia. apply tab3_ext; [lia..|]. intros i j c Hi' Hj Hc.
    rewrite hwc_window_image by (congruence || lia). unfold np_mean.
    rewrite C20_no_padding_windows_are_full by assumption.
    rewrite <- (div_mul N F). rewrite (mul_comm N (fl_ring N F)), (mul_1_l N (fl_ring N F)). reflexivity.
  Qed.

  (** ** Element-wise operations *)
  Notation sC := Broadcast.sC.
  Notation sH := Broadcast.sH.
  Notation sW := Broadcast.sW.
  Lemma bat_full o x f i j : 0 <= f < sC o -> 0 <= i < sH o -> 0 <= j < sW o ->
    Broadcast.bat N (o, x) f i j = nthZ z x (idx3 (sH o) (sW o) f i j).
  Proof.
    intros Hf Hi Hj. unfold Broadcast.bat, Broadcast.pick. cbn [fst snd]. unfold at3. f_equal.
    destruct (Z.eqb_spec (sC o) 1), (Z.eqb_spec (sH o) 1), (Z.eqb_spec (sW o) 1); f_equal; lia.
  Qed.
  Lemma bat_scalar x f i j : Broadcast.bat N (Broadcast.mkShape 1 1 1, x) f i j = nthZ z x 0.
  Proof. reflexivity. Qed.

  Lemma broadcast_between k o act cst (ts ts' : list (Broadcast.tensor N)) :
    0 <= sC o -> 0 <= sH o -> 0 <= sW o -> (forall t, cst = Some t -> fst t = Broadcast.mkShape 1 1 1) ->
    Forall2 (fun t t' => (t = t' /\ fst t = Broadcast.mkShape 1 1 1) \/
      (fst t = o /\ fst t' = o /\ zlen (snd t) = sC o * sH o * sW o /\ snd t' = to_last z (sC o) (sH o) (sW o) (snd t))) ts ts' ->
    BroadcastProofs.broadcast_result N k ts' cst o act = to_last z (sC o) (sH o) (sW o) (BroadcastProofs.broadcast_result N k ts cst o act).
  Proof.
    intros HC HH HW Hcst HF. unfold BroadcastProofs.broadcast_result.
    rewrite map_to_last by (try assumption; apply zlen_tab3; assumption). f_equal. rewrite to_last_tab3 by assumption.
    apply (tensor_ext z (sH o) (sW o) (sC o)); [assumption..| | |].
    - rewrite zlen_tab3 by assumption. ring.
    - apply zlen_tab3; assumption.
    - intros h w c Hh Hw Hc. rewrite (at3_tab3 z (sH o) (sW o) (sC o)) by assumption.
      unfold at3. assert (R : 0 <= idx3 (sW o) (sC o) h w c < sC o * sH o * sW o) by (pose proof (idx3_range (sH o) (sW o) (sC o) h w c Hh Hw Hc); lia).
      unfold tab3. rewrite nthZ_tab by exact R. destruct (split3_range _ _ _ _ R HC HH HW) as (P1 & P2 & P3 & R1 & R2 & R3).
      set (f' := _ / _) in *. set (i' := _ mod sH o) in *. set (j' := _ mod sW o) in *.
      assert (J : idx3 (sH o) (sW o) f' i' j' = idx3 (sW o) (sC o) h w c) by (apply idx3_join; lia).
      f_equal.
      + clear Hcst. induction HF as [|t t' l l' HT _ IH]; [reflexivity|]. cbn [map]. rewrite IH. f_equal.
        destruct HT as [(-> & Es)|(E1 & E2 & Hz & Ex)].
        * destruct t' as [s x]. cbn [fst] in Es. subst s. reflexivity.
        * destruct t as [s x], t' as [s' x']. cbn [fst snd] in *. subst s s' x'. rewrite !bat_full by assumption. rewrite J.
          change (at3 z (sW o) (sC o) (to_last z (sC o) (sH o) (sW o) x) h w c = at3 z (sH o) (sW o) x c h w).
          unfold to_last. rewrite at3_tab3 by assumption. reflexivity.
      + destruct cst as [[s x]|]; [|reflexivity]. specialize (Hcst _ eq_refl). cbn [fst] in Hcst. subst s. reflexivity.
  Qed.
End Lemmas.
