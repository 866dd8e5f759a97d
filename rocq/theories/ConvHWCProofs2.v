From Coq Require Import ZArith List Lia Bool Ring.
Import ListNotations.
Open Scope Z_scope.
From Verif Require Import CMem Tensor Num Movement Conv ConvProofs ConvHWC ConvHWCProofs.

Section Direct.
  Context (N : num) (L : ring_laws N).
  Notation V := (T N).
  Notation z := (n0 N).

  Lemma weight_read c w b x f p h w_ : conv_dims N c w b x ->
    0 <= f < nf c -> 0 <= p < ic c -> 0 <= h < kh c -> 0 <= w_ < kw c ->
    weight_at N c w f p h w_ = at3 z (kh c) (kw c) w (p + ic c * f) h w_.
  Proof. reflexivity. Qed.

  Lemma block_layout_at c BK w bk h w_ p k : 0 < BK -> 0 <= bk < nf c / BK -> 0 <= h < kh c -> 0 <= w_ < kw c ->
    0 <= p < ic c -> 0 <= k < BK ->
    rdl (block_layout N c BK w) ((((bk * kh c + h) * kw c + w_) * ic c) * BK + p * BK + k)
    = Some (weight_at N c w (bk * BK + k) p h w_).
  Proof.
    intros HB Hbk Hh Hw Hp Hk.
    replace ((((bk * kh c + h) * kw c + w_) * ic c) * BK + p * BK + k)
      with ((((bk * kh c + h) * kw c + w_) * ic c + p) * BK + k) by ring.
    assert (R1 : 0 <= bk * kh c + h < nf c / BK * kh c) by nia.
    assert (R2 : 0 <= (bk * kh c + h) * kw c + w_ < nf c / BK * kh c * kw c) by nia.
    assert (R3 : 0 <= ((bk * kh c + h) * kw c + w_) * ic c + p < nf c / BK * kh c * kw c * ic c) by nia.
    unfold block_layout, tab2. rewrite rdl_tab by nia.
    destruct (decode BK (((bk * kh c + h) * kw c + w_) * ic c + p) k Hk) as [-> ->].
    destruct (decode (ic c) ((bk * kh c + h) * kw c + w_) p Hp) as [-> ->].
    destruct (decode (kw c) (bk * kh c + h) w_ Hw) as [-> ->].
    destruct (decode (kh c) bk h Hh) as [-> ->]. reflexivity.
  Qed.

  (** The restricted kernel ranges are exactly the positions inside the image. *)
  Lemma ranges c o_h o_w h w_ : 0 <= h < kh c -> 0 <= w_ < kw c ->
    let kh_s := if pl c - o_h * strides c >? 0 then pl c - o_h * strides c else 0 in
    let kh_e := if kh c <? ih c + pl c - o_h * strides c then kh c else ih c + pl c - o_h * strides c in
    let kw_s := if pl c - o_w * strides c >? 0 then pl c - o_w * strides c else 0 in
    let kw_e := if kw c <? iw c + pl c - o_w * strides c then kw c else iw c + pl c - o_w * strides c in
    (((kh_s <=? h) && (h <? kh_e)) && ((kw_s <=? w_) && (w_ <? kw_e)))
    = inside c (o_h * strides c - pl c + h) (o_w * strides c - pl c + w_).
  Proof.
    intros Hh Hw kh_s kh_e kw_s kw_e. apply eq_true_iff_eq. rewrite inside_spec, !andb_true_iff, !Z.leb_le, !Z.ltb_lt.
    subst kh_s kh_e kw_s kw_e. rewrite !Z.gtb_ltb.
    destruct (Z.ltb_spec 0 (pl c - o_h * strides c)), (Z.ltb_spec (kh c) (ih c + pl c - o_h * strides c)),
      (Z.ltb_spec 0 (pl c - o_w * strides c)), (Z.ltb_spec (kw c) (iw c + pl c - o_w * strides c)); lia.
  Qed.

  Lemma restricted_sum KH KW kh_s kh_e kw_s kw_e C (t : Z -> Z -> Z -> V) a :
    0 <= kh_s -> kh_e <= KH -> 0 <= kw_s -> kw_e <= KW -> 0 <= KH -> 0 <= KW -> 0 <= C ->
    iterZ (kh_e - kh_s) (fun h s => iterZ (kw_e - kw_s) (fun w_ s => iterZ C (fun p s => nadd N s (t p (kh_s + h) (kw_s + w_))) s) s) a
    = nadd N a (nsum3 C KH KW (fun p h w_ => if ((kh_s <=? h) && (h <? kh_e)) && ((kw_s <=? w_) && (w_ <? kw_e)) then t p h w_ else z)).
  Proof.
    intros H1 H2 H3 H4 HKH HKW HC.
    rewrite (iterZ_ext (kh_e - kh_s) _ (fun h s => nadd N s (nsum N (kw_e - kw_s) (fun w_ => nsum N C (fun p => t p (kh_s + h) (kw_s + w_)))))).
    2:{ intros h s Hh. rewrite (iterZ_ext (kw_e - kw_s) _ (fun w_ s => nadd N s (nsum N C (fun p => t p (kh_s + h) (kw_s + w_))))).
        - apply (iterZ_add N L).
        - intros w_ s' Hw. apply (iterZ_add N L). }
    rewrite (iterZ_add N L). f_equal.
    rewrite (nsum_range N L KH kh_s kh_e (fun h => nsum N (kw_e - kw_s) (fun w_ => nsum N C (fun p => t p h (kw_s + w_))))) by assumption.
    rewrite (nsum3_nest N L) by assumption.
    rewrite (nsum_swap N L C KH) by assumption. apply nsum_ext. intros h Hh.
    rewrite (nsum_swap N L C KW) by assumption.
    destruct ((kh_s <=? h) && (h <? kh_e)) eqn:Eh; cbn [andb].
    - rewrite (nsum_range N L KW kw_s kw_e (fun w_ => nsum N C (fun p => t p h w_))) by assumption.
      apply nsum_ext. intros w_ Hw. destruct ((kw_s <=? w_) && (w_ <? kw_e)); [reflexivity|].
      symmetry. apply (nsum_zero N L). reflexivity.
    - symmetry. apply (nsum_zero N L). intros w_ Hw. apply (nsum_zero N L). reflexivity.
  Qed.

  Definition conv_sum c w x (f i j : Z) : V :=
    nsum3 (ic c) (kh c) (kw c) (fun p h w_ =>
      nmul N (zero_padded (ih c) (iw c) (to_first z (ic c) (ih c) (iw c) x) p (i * strides c + h * dilation c - pt c)
                                                      (j * strides c + w_ * dilation c - pl c))
             (at3 z (kh c) (kw c) w (p + ic c * f) h w_)).

  Lemma convolution_hwc_cells c w b act x : 0 <= nf c -> 0 <= oh c -> 0 <= ow c ->
    convolution_hwc N c w b act x = map act (tab (nf c * oh c * ow c) (cell N c (conv_sum c w x) b)).
  Proof. intros. unfold convolution_hwc, convolution. apply to_last_cells; assumption. Qed.

  Lemma direct_block_ok src out c BK w b act x :
    out <> Temp -> src <> Temp -> conv_dims N c w b x -> dilation c = 1 -> pt c = pl c ->
    0 < BK -> nf c mod BK = 0 ->
    layer_ok (direct_block_c N src out c BK (block_layout N c BK w) b act) [(src, x)] out
      (nf c * oh c * ow c) (nf c * oh c * ow c) (convolution_hwc N c w b act x).
  Proof.
    intros Ho Hs D Hd Hpad HBK Hdiv. pose proof D as [D1 D2 D3 D4 D5 D6 D7 D8 D9 D10 D11].
    assert (HNB : nf c / BK * BK = nf c) by (pose proof (Z.div_mod (nf c) BK ltac:(lia)); lia).
    assert (HNB0 : 0 <= nf c / BK) by (apply Z.div_pos; lia).
    rewrite convolution_hwc_cells by assumption. unfold direct_block_c.
    apply via_temp_ok; [exact Ho|rewrite zlen_tab by nia; reflexivity|].
    intros m Hm Ht. apply holds_src1 in Hm.
    set (F := cell N c (conv_sum c w x) b).
    match goal with |- exists m1, for_ _ ?B m = _ /\ _ => set (BODY := B) end.
    assert (TILE : forall bk o_h o_w m', 0 <= bk < nf c / BK -> 0 <= o_h < oh c -> 0 <= o_w < ow c -> mono Temp F m m' ->
      let base := o_h * ow c * nf c + o_w * nf c + bk * BK in
      exists m2, (fun m =>
         let kh_s := if pl c - o_h * strides c >? 0 then pl c - o_h * strides c else 0 in
         let kh_e := if kh c <? ih c + pl c - o_h * strides c then kh c else ih c + pl c - o_h * strides c in
         let kw_s := if pl c - o_w * strides c >? 0 then pl c - o_w * strides c else 0 in
         let kw_e := if kw c <? iw c + pl c - o_w * strides c then kw c else iw c + pl c - o_w * strides c in
         let base := o_h * ow c * nf c + o_w * nf c + bk * BK in
         m1 <- for_ BK (fun k m => bv <- rdl b (bk * BK + k) ;; wr m Temp (base + k) bv) m ;;
         for_ (kh_e - kh_s) (fun h' => let h := kh_s + h' in
           let i_h := o_h * strides c - pl c + h in
           for_ (kw_e - kw_s) (fun w' => let w_ := kw_s + w' in
             let i_w := o_w * strides c - pl c + w_ in
             for_ (ic c) (fun p m =>
               iv <- rd m src ((i_h * iw c + i_w) * ic c + p) ;;
               for_ BK (fun k m =>
                 t <- rd m Temp (base + k) ;;
                 wv <- rdl (block_layout N c BK w) ((((bk * kh c + h) * kw c + w_) * ic c) * BK + p * BK + k) ;;
                 wr m Temp (base + k) (nadd N t (nmul N iv wv))) m))) m1) m' = Some m2 /\
        mono Temp F m' m2 /\ forall q, base <= q < base + BK -> right_at Temp F m2 q).
    { intros bk o_h o_w m' Hbk Hoh How M base. destruct M as [OM _]. cbv beta zeta. fold base.
      assert (HBb : 0 <= base /\ base + BK <= nf c * oh c * ow c).
      { assert (bk * BK + BK <= nf c) by nia. assert (0 <= o_h * ow c + o_w /\ o_h * ow c + o_w + 1 <= oh c * ow c) by nia. unfold base. nia. }
      pose proof (ranges c o_h o_w) as RG. cbv zeta in RG.
      set (kh_s := if pl c - o_h * strides c >? 0 then pl c - o_h * strides c else 0) in *.
      set (kh_e := if kh c <? ih c + pl c - o_h * strides c then kh c else ih c + pl c - o_h * strides c) in *.
      set (kw_s := if pl c - o_w * strides c >? 0 then pl c - o_w * strides c else 0) in *.
      set (kw_e := if kw c <? iw c + pl c - o_w * strides c then kw c else iw c + pl c - o_w * strides c) in *.
      assert (S1 : 0 <= kh_s) by (unfold kh_s; rewrite Z.gtb_ltb; destruct (Z.ltb_spec 0 (pl c - o_h * strides c)); lia).
      assert (S2 : kh_e <= kh c) by (unfold kh_e; destruct (Z.ltb_spec (kh c) (ih c + pl c - o_h * strides c)); lia).
      assert (S3 : 0 <= kw_s) by (unfold kw_s; rewrite Z.gtb_ltb; destruct (Z.ltb_spec 0 (pl c - o_w * strides c)); lia).
      assert (S4 : kw_e <= kw c) by (unfold kw_e; destruct (Z.ltb_spec (kw c) (iw c + pl c - o_w * strides c)); lia).
      destruct (row_store N Temp base BK (fun k m => bv <- rdl b (bk * BK + k) ;; wr m Temp (base + k) bv) m'
        (fun k => nthZ z b (bk * BK + k))) as (m1 & E1 & R1 & I1).
      { lia. } { lia. } { rewrite (only_zlen m m' Temp Temp OM). lia. }
      { intros j mj Hj _. rewrite (rdl_nthZ z b) by (rewrite D11; nia). reflexivity. }
      rewrite E1. cbn [bind].
      set (t := fun k p h w_ => nmul N (at3 z (iw c) (ic c) x (o_h * strides c - pl c + h) (o_w * strides c - pl c + w_) p)
                                       (weight_at N c w (bk * BK + k) p h w_)).
      match goal with |- exists m2, for_ _ ?B m1 = _ /\ _ =>
        destruct (row_loop_any N Temp base BK (kh_e - kh_s) B
          (fun h' k s => iterZ (kw_e - kw_s) (fun w' s => iterZ (ic c) (fun p s => nadd N s (t k p (kh_s + h') (kw_s + w'))) s) s) m1 _ I1)
          as (m2 & E2 & R2 & I2) end.
      { intros h' ma va Hh' Ra Ia.
        apply row_loop_any with (term := fun w' k s => iterZ (ic c) (fun p s => nadd N s (t k p (kh_s + h') (kw_s + w'))) s); [exact Ia|].
        intros w' mb vb Hw' Rb Ib.
        apply row_loop with (term := fun p k s => nadd N s (t k p (kh_s + h') (kw_s + w'))); [lia|exact Ib|].
        intros p mc vc Hp Rc Ic.
        assert (IN : inside c (o_h * strides c - pl c + (kh_s + h')) (o_w * strides c - pl c + (kw_s + w')) = true).
        { rewrite <- RG by lia. rewrite !andb_true_iff, !Z.leb_le, !Z.ltb_lt. lia. }
        apply inside_spec in IN.
        assert (Hmc : holds mc src x).
        { destruct R1 as [[_ O1] _], Ra as [[_ Oa] _], Rb as [[_ Ob] _], Rc as [[_ Oc] _], OM as [_ OM].
          eapply holds_eq; [|exact Hm]. rewrite Oc, Ob, Oa, O1, OM; auto. }
        rewrite (rd_hwc N mc src x c) by (assumption || lia). cbn [bind].
        destruct (row_map BK base (fun k m =>
                 t <- rd m Temp (base + k) ;;
                 wv <- rdl (block_layout N c BK w) ((((bk * kh c + (kh_s + h')) * kw c + (kw_s + w')) * ic c) * BK + p * BK + k) ;;
                 wr m Temp (base + k) (nadd N t (nmul N (at3 z (iw c) (ic c) x (o_h * strides c - pl c + (kh_s + h')) (o_w * strides c - pl c + (kw_s + w')) p) wv)))
          Temp mc vc (fun k => nadd N (vc k) (t k p (kh_s + h') (kw_s + w')))) as (md & Ed & Od & P1 & P2); [lia|exact Ic| |].
        - intros k me Hk Oe Re. rewrite Re. cbn [bind].
          rewrite block_layout_at by lia. cbn [bind]. reflexivity.
        - exists md. split; [exact Ed|]. split; [split; assumption|exact P1]. }
      exists m2. split; [exact E2|].
      destruct (row_step_mono N Temp base BK F m' m2) as [MM RR]; [eapply row_step_trans; eauto| |split; assumption].
      eapply row_is_ext; [|exact I2]. intros k Hk. cbv beta.
      rewrite (restricted_sum (kh c) (kw c) kh_s kh_e kw_s kw_e (ic c) (t k)) by lia.
      unfold F. unfold base. replace (o_h * ow c * nf c + o_w * nf c + bk * BK + k) with (o_h * ow c * nf c + o_w * nf c + (bk * BK + k)) by ring.
      rewrite cell_at by nia. rewrite (add_comm N L). f_equal. unfold conv_sum. apply nsum3_ext; [lia|lia|lia|].
      intros p h w_ Hp Hh Hw. rewrite RG by lia. rewrite (zp_to_first N c x) by assumption. rewrite Hd, Hpad, !Z.mul_1_r.
      replace (o_h * strides c + h - pl c) with (o_h * strides c - pl c + h) by ring.
      replace (o_w * strides c + w_ - pl c) with (o_w * strides c - pl c + w_) by ring.
      destruct (inside c _ _); [reflexivity|]. symmetry. apply (mul_0_l N L). }
    destruct (for_mono Temp F (nf c / BK) BODY
      (fun bk q => exists o_h o_w, 0 <= o_h < oh c /\ 0 <= o_w < ow c /\
         let base := o_h * ow c * nf c + o_w * nf c + bk * BK in base <= q < base + BK) m) as (m1 & E1 & M1 & R1).
    { exact HNB0. }
    { intros bk m1 Hbk M1. unfold BODY.
      match goal with |- exists m2, for_ _ ?B m1 = _ /\ _ =>
        destruct (for_mono Temp F (oh c) B (fun o_h q => exists o_w, 0 <= o_w < ow c /\
         let base := o_h * ow c * nf c + o_w * nf c + bk * BK in base <= q < base + BK) m1) as (m2 & E2 & M2 & R2) end.
      { exact D5. }
      { intros o_h m2 Hoh M2.
        match goal with |- exists m2', for_ _ ?B m2 = _ /\ _ =>
          destruct (for_mono Temp F (ow c) B (fun o_w q => 
           let base := o_h * ow c * nf c + o_w * nf c + bk * BK in base <= q < base + BK) m2) as (m3 & E3 & M3 & R3) end.
        { exact D6. }
        { intros o_w m3 How M3. apply (TILE bk o_h o_w m3); auto.
          eapply mono_trans; [exact M1|]. eapply mono_trans; eassumption. }
        exists m3. split; [exact E3|]. split; [exact M3|]. intros q (o_w & How & Hq). apply (R3 o_w); assumption. }
      exists m2. split; [exact E2|]. split; [exact M2|]. intros q (o_h & o_w & Hoh & How & Hq). apply (R2 o_h); [exact Hoh|].
      exists o_w. auto. }
    exists m1. split; [exact E1|]. destruct M1 as [O1 _]. split; [exact O1|].
    apply holds_cells; [rewrite (only_zlen m m1 Temp Temp O1); nia|]. intros q Hq.
    destruct (split3_range (oh c) (ow c) (nf c) q) as (P1 & P2 & P3 & P4 & P5 & P6); [lia|lia|lia|lia|].
    apply (R1 ((q mod nf c) / BK)).
    { split; [apply Z.div_pos; lia|]. apply Z.div_lt_upper_bound; nia. }
    exists (q / (ow c * nf c)), ((q / nf c) mod ow c). split; [exact P4|]. split; [exact P5|]. cbv zeta.
    pose proof (idx3_join (ow c) (nf c) q ltac:(lia) P2 P3) as J. unfold idx3 in J.
    pose proof (Z.div_mod (q mod nf c) BK ltac:(lia)). pose proof (Z.mod_pos_bound (q mod nf c) BK HBK). nia.
  Qed.
End Direct.

Section Depthwise.
  Context (N : num) (L : ring_laws N).
  Notation V := (T N).
  Notation z := (n0 N).

  Lemma dw_layout_at c (w : list V) h w_ k : 0 <= h < kh c -> 0 <= w_ < kw c -> 0 <= k < nf c ->
    rdl (dw_layout N c w) (h * kw c * nf c + w_ * nf c + k) = Some (at3 z (kh c) (kw c) w k h w_).
  Proof.
    intros Hh Hw Hk. replace (h * kw c * nf c + w_ * nf c + k) with ((h * kw c + w_) * nf c + k) by ring.
    assert (0 <= h * kw c + w_ < kh c * kw c) by nia.
    unfold dw_layout, tab2. rewrite rdl_tab by nia.
    destruct (decode (nf c) (h * kw c + w_) k Hk) as [-> ->]. destruct (decode (kw c) h w_ Hw) as [-> ->]. reflexivity.
  Qed.

  Definition dw_sum c (w x : list V) (f i j : Z) : V :=
    nsum3 1 (kh c) (kw c) (fun _ h w_ =>
      nmul N (zero_padded (ih c) (iw c) (to_first z (ic c) (ih c) (iw c) x) f (i * strides c + h - pt c) (j * strides c + w_ - pl c))
             (at3 z (kh c) (kw c) w f h w_)).

  Lemma restricted_sum1 KH KW kh_s kh_e kw_s kw_e (t : Z -> Z -> V) a :
    0 <= kh_s -> kh_e <= KH -> 0 <= kw_s -> kw_e <= KW -> 0 <= KH -> 0 <= KW ->
    iterZ (kh_e - kh_s) (fun h s => iterZ (kw_e - kw_s) (fun w_ s => nadd N s (t (kh_s + h) (kw_s + w_))) s) a
    = nadd N a (nsum3 1 KH KW (fun _ h w_ => if ((kh_s <=? h) && (h <? kh_e)) && ((kw_s <=? w_) && (w_ <? kw_e)) then t h w_ else z)).
  Proof.
    intros. rewrite <- (restricted_sum N L KH KW kh_s kh_e kw_s kw_e 1 (fun _ => t)) by lia.
    apply iterZ_ext. intros h s Hh. apply iterZ_ext. intros w_ s' Hw. reflexivity.
  Qed.

  Lemma depthwise_ok src out c w b act x :
    out <> Temp -> src <> Temp ->
    0 <= ih c -> 0 <= iw c -> 0 <= nf c -> 0 <= oh c -> 0 <= ow c -> 0 <= kh c -> 0 <= kw c ->
    ic c = nf c -> zlen x = nf c * ih c * iw c -> zlen b = nf c -> pt c = pl c ->
    layer_ok (depthwise_c N src out c (dw_layout N c w) b act) [(src, x)] out
      (nf c * oh c * ow c) (nf c * oh c * ow c) (depthwise_hwc N c w b act x).
  Proof.
    intros Ho Hs D2 D3 D4 D5 D6 D7 D8 Hic D9 D11 Hpad.
    unfold depthwise_hwc. cbv zeta. change (fun f i j : Z => nadd N (nsum3 1 (kh c) (kw c) (fun _ h w_ =>
                   nmul N (zero_padded (ih c) (iw c) (to_first z (ic c) (ih c) (iw c) x) f (i * strides c + h - pt c) (j * strides c + w_ - pl c))
                          (at3 z (kh c) (kw c) w f h w_))) (nthZ z b f)) with (fun f i j : Z => nadd N (dw_sum c w x f i j) (nthZ z b f)).
    rewrite to_last_cells by assumption. unfold depthwise_c.
    apply via_temp_ok; [exact Ho|rewrite zlen_tab by nia; reflexivity|].
    intros m Hm Ht. apply holds_src1 in Hm.
    set (F := cell N c (dw_sum c w x) b).
    match goal with |- exists m1, for_ _ ?B m = _ /\ _ => set (BODY := B) end.
    destruct (for_mono Temp F (oh c) BODY
      (fun o_h q => exists o_w, 0 <= o_w < ow c /\
         let base := o_h * ow c * nf c + o_w * nf c in base <= q < base + nf c) m) as (m1 & E1 & M1 & R1).
    { exact D5. }
    { intros o_h m1 Hoh M1. unfold BODY.
      match goal with |- exists m2', for_ _ ?B m1 = _ /\ _ =>
        destruct (for_mono Temp F (ow c) B (fun o_w q => let base := o_h * ow c * nf c + o_w * nf c in base <= q < base + nf c) m1)
          as (m3 & E3 & M3 & R3) end.
      { exact D6. }
      { intros o_w m' How M'. assert (OM : only m m' Temp) by (eapply only_trans; [apply M1|apply M']).
        set (base := o_h * ow c * nf c + o_w * nf c). cbv beta zeta. fold base.
        assert (HBb : 0 <= base /\ base + nf c <= nf c * oh c * ow c).
        { assert (0 <= o_h * ow c + o_w /\ o_h * ow c + o_w + 1 <= oh c * ow c) by nia. unfold base. nia. }
        assert (RG : forall h w_, 0 <= h < kh c -> 0 <= w_ < kw c ->
          ((((if 0 >? - (o_h * strides c - pl c) then 0 else - (o_h * strides c - pl c)) <=? h) &&
            (h <? (if kh c <? ih c - (o_h * strides c - pl c) then kh c else ih c - (o_h * strides c - pl c)))) &&
           (((if 0 >? - (o_w * strides c - pl c) then 0 else - (o_w * strides c - pl c)) <=? w_) &&
            (w_ <? (if kw c <? iw c - (o_w * strides c - pl c) then kw c else iw c - (o_w * strides c - pl c)))))
          = inside c (o_h * strides c - pl c + h) (o_w * strides c - pl c + w_)).
        { intros h w_ Hh Hw. apply eq_true_iff_eq. rewrite inside_spec, !andb_true_iff, !Z.leb_le, !Z.ltb_lt. rewrite !Z.gtb_ltb.
          destruct (Z.ltb_spec (- (o_h * strides c - pl c)) 0), (Z.ltb_spec (kh c) (ih c - (o_h * strides c - pl c))),
            (Z.ltb_spec (- (o_w * strides c - pl c)) 0), (Z.ltb_spec (kw c) (iw c - (o_w * strides c - pl c))); lia. }
        set (kh_s := if 0 >? - (o_h * strides c - pl c) then 0 else - (o_h * strides c - pl c)) in *.
        set (kh_e := if kh c <? ih c - (o_h * strides c - pl c) then kh c else ih c - (o_h * strides c - pl c)) in *.
        set (kw_s := if 0 >? - (o_w * strides c - pl c) then 0 else - (o_w * strides c - pl c)) in *.
        set (kw_e := if kw c <? iw c - (o_w * strides c - pl c) then kw c else iw c - (o_w * strides c - pl c)) in *.
        assert (S1 : 0 <= kh_s) by (unfold kh_s; rewrite Z.gtb_ltb; destruct (Z.ltb_spec (- (o_h * strides c - pl c)) 0); lia).
        assert (S2 : kh_e <= kh c) by (unfold kh_e; destruct (Z.ltb_spec (kh c) (ih c - (o_h * strides c - pl c))); lia).
        assert (S3 : 0 <= kw_s) by (unfold kw_s; rewrite Z.gtb_ltb; destruct (Z.ltb_spec (- (o_w * strides c - pl c)) 0); lia).
        assert (S4 : kw_e <= kw c) by (unfold kw_e; destruct (Z.ltb_spec (kw c) (iw c - (o_w * strides c - pl c))); lia).
        destruct (row_store N Temp base (nf c) (fun k m => bv <- rdl b k ;; wr m Temp (base + k) bv) m'
          (fun k => nthZ z b k)) as (m2 & E2 & R2 & I2).
        { lia. } { lia. } { rewrite (only_zlen m m' Temp Temp OM). lia. }
        { intros j mj Hj _. rewrite (rdl_nthZ z b) by (rewrite D11; nia). reflexivity. }
        rewrite E2. cbn [bind].
        set (t := fun k h w_ => nmul N (at3 z (iw c) (nf c) x (o_h * strides c - pl c + h) (o_w * strides c - pl c + w_) k)
                                         (at3 z (kh c) (kw c) w k h w_)).
        match goal with |- exists mz, for_ _ ?B m2 = _ /\ _ =>
          destruct (row_loop_any N Temp base (nf c) (kh_e - kh_s) B
            (fun h' k s => iterZ (kw_e - kw_s) (fun w' s => nadd N s (t k (kh_s + h') (kw_s + w'))) s) m2 _ I2)
            as (m3 & E3 & R3 & I3) end.
        { intros h' ma va Hh' Ra Ia.
          apply row_loop_any with (term := fun w' k s => nadd N s (t k (kh_s + h') (kw_s + w'))); [exact Ia|].
          intros w' mc vc Hw' Rc Ic.
          assert (IN : inside c (o_h * strides c - pl c + (kh_s + h')) (o_w * strides c - pl c + (kw_s + w')) = true).
          { rewrite <- RG by lia. rewrite !andb_true_iff, !Z.leb_le, !Z.ltb_lt. lia. }
          apply inside_spec in IN.
          assert (Hmc : holds mc src x).
          { destruct R2 as [[_ O1] _], Ra as [[_ Oa] _], Rc as [[_ Oc] _], OM as [_ OM].
            eapply holds_eq; [|exact Hm]. rewrite Oc, Oa, O1, OM; auto. }
          match goal with |- exists m2, for_ _ ?B mc = _ /\ _ =>
            destruct (row_map (nf c) base B Temp mc vc (fun k => nadd N (vc k) (t k (kh_s + h') (kw_s + w')))) as (md & Ed & Od & P1 & P2) end.
          - exact D4.
          - exact Ic.
          - intros k me Hk Oe Re. rewrite Re. cbn [bind].
            assert (Hme : holds me src x) by (eapply holds_other; eauto).
            rewrite (rd_at3 z me src x (ih c) (iw c) (nf c) (o_h * strides c - pl c + (kh_s + h')) (o_w * strides c - pl c + (kw_s + w')) k);
              try (assumption || lia). 2:{ unfold idx3. ring. }
            cbn [bind]. rewrite dw_layout_at by lia. reflexivity.
          - exists md. split; [exact Ed|]. split; [split; assumption|exact P1]. }
        exists m3. split; [exact E3|].
        destruct (row_step_mono N Temp base (nf c) F m' m3) as [MM RR]; [eapply row_step_trans; eauto| |split; assumption].
        eapply row_is_ext; [|exact I3]. intros k Hk. cbv beta.
        rewrite (restricted_sum1 (kh c) (kw c) kh_s kh_e kw_s kw_e (t k)) by lia.
        unfold F. unfold base. rewrite cell_at by lia. rewrite (add_comm N L). f_equal. unfold dw_sum. apply nsum3_ext; [lia|lia|lia|].
        intros p h w_ Hp Hh Hw. rewrite RG by lia. rewrite (zp_to_first N c x) by (rewrite ?Hic; assumption || lia). rewrite Hpad.
        replace (o_h * strides c + h - pl c) with (o_h * strides c - pl c + h) by ring.
        replace (o_w * strides c + w_ - pl c) with (o_w * strides c - pl c + w_) by ring.
        rewrite Hic. destruct (inside c _ _); [reflexivity|]. symmetry. apply (mul_0_l N L). }
      exists m3. split; [exact E3|]. split; [exact M3|]. intros q (o_w & How & Hq). apply (R3 o_w); assumption. }
    exists m1. split; [exact E1|]. destruct M1 as [O1 _]. split; [exact O1|].
    apply holds_cells; [rewrite (only_zlen m m1 Temp Temp O1); nia|]. intros q Hq.
    destruct (split3_range (oh c) (ow c) (nf c) q) as (P1 & P2 & P3 & P4 & P5 & P6); [lia|lia|lia|lia|].
    apply (R1 (q / (ow c * nf c))); [exact P4|].
    exists ((q / nf c) mod ow c). split; [exact P5|]. cbv zeta.
    pose proof (idx3_join (ow c) (nf c) q ltac:(lia) P2 P3) as J. unfold idx3 in J. nia.
  Qed.
End Depthwise.
