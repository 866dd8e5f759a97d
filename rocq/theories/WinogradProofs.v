From Coq Require Import ZArith List Lia Bool Ring.
Import ListNotations.
Open Scope Z_scope.
From Verif Require Import CMem Tensor Num Movement Conv ConvProofs ConvHWC ConvHWCProofs ConvHWCProofs2.

Section Algebra.
  Context (N : num) (L : ring_laws N) (half : T N) (Hh : nadd N half half = n1 N).
  Notation V := (T N).
  Notation z := (n0 N).
  Add Ring NR : (num_ring_theory N L).

  (** One-dimensional F(2,3): [d] four values, [g] three. *)
  Definition Gg (g : Z -> V) (i : Z) : V := nsum N 3 (fun j => nmul N (wino_G N half i j) (g j)).

  Lemma nsum_three (f : Z -> V) : nsum N 3 f = nadd N (nadd N (nadd N z (f 0)) (f 1)) (f 2).
  Proof. reflexivity. Qed.

  Lemma winograd_1d (d g : Z -> V) a : (a = 0 \/ a = 1) ->
    wino_AT N a (fun i => nmul N (wino_BT N i d) (Gg g i)) = nsum N 3 (fun j => nmul N (d (a + j)) (g j)).
  Proof.
    intros Ha.
    assert (E : forall X Y, X = nmul N (nadd N half half) Y -> nadd N half half = n1 N -> X = Y).
    { intros X Y HX H. rewrite HX, H. ring. }
    assert (E0 : Gg g 0 = nmul N (nadd N half half) (g 0)).
    { unfold Gg. rewrite nsum_three. unfold wino_G. cbn. rewrite Hh. ring. }
    assert (E3 : Gg g 3 = nmul N (nadd N half half) (g 2)).
    { unfold Gg. rewrite nsum_three. unfold wino_G. cbn. rewrite Hh. ring. }
    assert (E1 : Gg g 1 = nmul N half (nadd N (nadd N (g 0) (g 1)) (g 2))).
    { unfold Gg. rewrite nsum_three. unfold wino_G. cbn. ring. }
    assert (E2 : Gg g 2 = nmul N half (nadd N (nsub N (g 0) (g 1)) (g 2))).
    { unfold Gg. rewrite nsum_three. unfold wino_G. cbn. ring. }
    rewrite nsum_three. apply E; [|exact Hh].
    destruct Ha as [-> | ->]; unfold wino_AT, wino_BT; cbn -[Gg]; rewrite ?E0, ?E1, ?E2, ?E3; ring.
  Qed.

  (** Linearity *)
  Lemma AT_nsum a n (f : Z -> Z -> V) : wino_AT N a (fun i => nsum N n (f i)) = nsum N n (fun p => wino_AT N a (fun i => f i p)).
  Proof.
    destruct (Z_le_gt_dec n 0) as [Hn|Hn].
    { unfold wino_AT. rewrite !nsum_0 by lia. destruct (a =? 0); ring. }
    assert (G : forall k, 0 <= k -> k <= n -> wino_AT N a (fun i => nsum N k (f i)) = nsum N k (fun p => wino_AT N a (fun i => f i p))).
    { intros k Hk. pattern k. revert k Hk. apply for_ind.
      - intros _. unfold wino_AT. rewrite !nsum_0 by lia. destruct (a =? 0); ring.
      - intros k Hk IH Hkn. rewrite nsum_succ by lia. rewrite <- IH by lia. unfold wino_AT. rewrite !nsum_succ by lia.
        destruct (a =? 0); ring. }
    apply G; lia.
  Qed.
  Lemma AT_ext a f g : (forall i, 0 <= i < 4 -> f i = g i) -> wino_AT N a f = wino_AT N a g.
  Proof. intros H. unfold wino_AT. destruct (a =? 0); rewrite !H by lia; reflexivity. Qed.
  Lemma BT_ext a f g : (forall i, 0 <= i < 4 -> f i = g i) -> wino_BT N a f = wino_BT N a g.
  Proof. intros H. unfold wino_BT. destruct (a =? 0), (a =? 1), (a =? 2); rewrite !H by lia; reflexivity. Qed.
  Lemma BT_comm i q (d : Z -> Z -> V) : wino_BT N q (fun j => wino_BT N i (fun r => d r j)) = wino_BT N i (fun r => wino_BT N q (d r)).
  Proof. unfold wino_BT. destruct (i =? 0), (i =? 1), (i =? 2), (q =? 0), (q =? 1), (q =? 2); ring. Qed.

  (** The F(2x2,3x3) identity, for one channel: [d] the 4x4 tile, [g] the 3x3 kernel. *)
  Definition gGg (g : Z -> Z -> V) (i m : Z) : V :=
    nsum N 3 (fun j => nsum N 3 (fun l => nmul N (nmul N (wino_G N half i j) (g j l)) (wino_G N half m l))).

  Lemma gGg_Gg g i m : gGg g i m = Gg (fun j => Gg (g j) m) i.
  Proof.
    unfold gGg, Gg. apply nsum_ext. intros j _. rewrite (nsum_mul_l N L). apply nsum_ext. intros l _. ring.
  Qed.

  Lemma winograd_2d (d g : Z -> Z -> V) a b : (a = 0 \/ a = 1) -> (b = 0 \/ b = 1) ->
    wino_AT N b (fun q => wino_AT N a (fun i =>
       nmul N (wino_BT N q (fun j => wino_BT N i (fun r => d r j))) (gGg g i q)))
    = nsum N 3 (fun j => nsum N 3 (fun l => nmul N (d (a + j) (b + l)) (g j l))).
  Proof.
    intros Ha Hb.
    rewrite (AT_ext b _ (fun q => nsum N 3 (fun j => nmul N (wino_BT N q (d (a + j))) (Gg (g j) q)))).
    - rewrite AT_nsum. apply nsum_ext. intros j _. apply winograd_1d. exact Hb.
    - intros q _. rewrite <- (winograd_1d (fun r => wino_BT N q (d r)) (fun j => Gg (g j) q) a Ha).
      apply AT_ext. intros i _. rewrite BT_comm, gGg_Gg. reflexivity.
  Qed.
End Algebra.

Section Winograd.
  Context (N : num) (L : ring_laws N) (half : T N) (Hh : nadd N half half = n1 N).
  Notation V := (T N).
  Notation z := (n0 N).
  Add Ring NR2 : (num_ring_theory N L).

  Lemma wino_layout_at c BK w kb i q p k : 0 < BK -> 0 <= kb < nf c / BK -> 0 <= i < 4 -> 0 <= q < 4 ->
    0 <= p < ic c -> 0 <= k < BK ->
    rdl (wino_layout N half c BK w) ((((kb * 4 + i) * 4 + q) * ic c + p) * BK + k)
    = Some (wino_weight N half c w (kb * BK + k) p i q).
  Proof.
    intros HB Hkb Hi Hq Hp Hk.
    assert (R1 : 0 <= kb * 4 + i < nf c / BK * 4) by lia.
    assert (R2 : 0 <= (kb * 4 + i) * 4 + q < nf c / BK * 4 * 4) by lia.
    assert (R3 : 0 <= ((kb * 4 + i) * 4 + q) * ic c + p < nf c / BK * 4 * 4 * ic c) by nia.
    unfold wino_layout, tab2. rewrite rdl_tab by nia.
    destruct (decode BK (((kb * 4 + i) * 4 + q) * ic c + p) k Hk) as [-> ->].
    destruct (decode (ic c) ((kb * 4 + i) * 4 + q) p Hp) as [-> ->].
    destruct (decode 4 (kb * 4 + i) q Hq) as [-> ->].
    destruct (decode 4 kb i Hi) as [-> ->]. reflexivity.
  Qed.

  (** One tile. *)
  Definition tile_val c x o_h o_w p (r q : Z) : V :=
    let i_h := o_h + r - pl c in let i_w := o_w + q - pl c in
    if inside c i_h i_w then at3 z (iw c) (ic c) x i_h i_w p else z.

  Lemma tile_load m src (x : list V) c o_h o_w p : holds m src x -> zlen x = ic c * ih c * iw c -> 0 <= p < ic c ->
    exists d, for_ 4 (fun r => for_ 4 (fun q (d : larr N) =>
         let i_h := o_h + r - pl c in let i_w := o_w + q - pl c in
         v <- (if inside c i_h i_w then rd m src (i_h * iw c * ic c + p + i_w * ic c) else Some z) ;;
         Some (upd3 N d r q 0 v))) (fun _ _ _ => z) = Some d /\
      forall r q, 0 <= r < 4 -> 0 <= q < 4 -> d r q 0 = tile_val c x o_h o_w p r q.
  Proof.
    intros Hm Hx Hp.
    destruct (for_upd3 N 4 4 1 (fun r q k (d : larr N) =>
         v <- (if inside c (o_h + r - pl c) (o_w + q - pl c)
               then rd m src ((o_h + r - pl c) * iw c * ic c + p + (o_w + q - pl c) * ic c) else Some z) ;;
         Some (upd3 N d r q k v)) (fun r q k _ => tile_val c x o_h o_w p r q) (fun _ _ _ => z)) as (d & E & P); try lia.
    - intros r q k s Hr Hq Hk. unfold tile_val. cbv zeta. destruct (inside c (o_h + r - pl c) (o_w + q - pl c)) eqn:EI; [|reflexivity].
      apply inside_spec in EI.
      replace ((o_h + r - pl c) * iw c * ic c + p + (o_w + q - pl c) * ic c)
        with (((o_h + r - pl c) * iw c + (o_w + q - pl c)) * ic c + p) by ring.
      rewrite (rd_hwc N m src x c) by (assumption || lia). reflexivity.
    - exists d. split; [|intros r q Hr Hq; apply (P r q 0); lia].
      rewrite <- E. apply for_ext. intros r s Hr. apply for_ext. intros q s' Hq.
      rewrite for_pure with (n := 1) (g := fun k (d : larr N) => upd3 N d r q 0 (tile_val c x o_h o_w p r q)).
      + cbv beta zeta. unfold iterZ, itern. cbn -[inside upd3 tile_val rd]. unfold tile_val. cbv zeta.
        destruct (inside c (o_h + r - pl c) (o_w + q - pl c)) eqn:EI; [|reflexivity].
        apply inside_spec in EI.
        replace ((o_h + r - pl c) * iw c * ic c + p + (o_w + q - pl c) * ic c)
          with (((o_h + r - pl c) * iw c + (o_w + q - pl c)) * ic c + p) by ring.
        rewrite (rd_hwc N m src x c) by (assumption || lia). reflexivity.
      + intros k d0 Hk. assert (k = 0) as -> by lia. unfold tile_val. cbv zeta.
        destruct (inside c (o_h + r - pl c) (o_w + q - pl c)) eqn:EI; [|reflexivity].
        apply inside_spec in EI.
        replace ((o_h + r - pl c) * iw c * ic c + p + (o_w + q - pl c) * ic c)
          with (((o_h + r - pl c) * iw c + (o_w + q - pl c)) * ic c + p) by ring.
        rewrite (rd_hwc N m src x c) by (assumption || lia). reflexivity.
  Qed.

  Definition acc_val c w x o_h o_w kb BK n (i q k : Z) : V :=
    nsum N n (fun p => nmul N (wino_BT N q (fun j => wino_BT N i (fun r => tile_val c x o_h o_w p r j)))
                              (wino_weight N half c w (kb * BK + k) p i q)).

  Lemma acc_loop m src (x : list V) c BK w kb o_h o_w : holds m src x -> zlen x = ic c * ih c * iw c -> 0 <= ic c ->
    0 < BK -> 0 <= kb < nf c / BK ->
    exists acc, for_ (ic c) (fun p acc =>
                  d <- for_ 4 (fun r => for_ 4 (fun q (d : larr N) =>
                         let i_h := o_h + r - pl c in let i_w := o_w + q - pl c in
                         v <- (if inside c i_h i_w then rd m src (i_h * iw c * ic c + p + i_w * ic c) else Some z) ;;
                         Some (upd3 N d r q 0 v))) (fun _ _ _ => z) ;;
                  let temp := fun i j => wino_BT N i (fun r => d r j 0) in
                  for_ 4 (fun i => for_ 4 (fun q => for_ BK (fun k (acc : larr N) =>
                    wv <- rdl (wino_layout N half c BK w) ((((kb * 4 + i) * 4 + q) * ic c + p) * BK + k) ;;
                    Some (upd3 N acc i q k (nadd N (acc i q k) (nmul N (wino_BT N q (temp i)) wv)))))) acc) (fun _ _ _ => z) = Some acc /\
      forall i q k, 0 <= i < 4 -> 0 <= q < 4 -> 0 <= k < BK -> acc i q k = acc_val c w x o_h o_w kb BK (ic c) i q k.
  Proof.
    intros Hm Hx Hic HBK Hkb.
    apply for_inv with (P := fun n acc => forall i q k, 0 <= i < 4 -> 0 <= q < 4 -> 0 <= k < BK -> acc i q k = acc_val c w x o_h o_w kb BK n i q k).
    - exact Hic.
    - intros i q k _ _ _. unfold acc_val. rewrite nsum_0 by lia. reflexivity.
    - intros p acc Hp IH. destruct (tile_load m src x c o_h o_w p Hm Hx Hp) as (d & -> & Hd). cbn [bind]. cbv zeta.
      destruct (for_upd3 N 4 4 BK (fun i q k (acc : larr N) =>
                    wv <- rdl (wino_layout N half c BK w) ((((kb * 4 + i) * 4 + q) * ic c + p) * BK + k) ;;
                    Some (upd3 N acc i q k (nadd N (acc i q k) (nmul N (wino_BT N q (fun j => wino_BT N i (fun r => d r j 0))) wv))))
         (fun i q k v => nadd N v (nmul N (wino_BT N q (fun j => wino_BT N i (fun r => d r j 0))) (wino_weight N half c w (kb * BK + k) p i q))) acc)
        as (acc' & E & P); try lia.
      + intros i q k s Hi Hq Hk. rewrite wino_layout_at by assumption. reflexivity.
      + exists acc'. split; [exact E|]. intros i q k Hi Hq Hk. rewrite P, IH by assumption.
        unfold acc_val. rewrite nsum_succ by lia. f_equal. f_equal. apply (BT_ext N). intros j Hj. apply (BT_ext N). intros r Hr.
        apply Hd; assumption.
  Qed.

  Lemma tile_out c w x o_h o_w kb BK a b k : zlen x = ic c * ih c * iw c -> 0 <= ic c ->
    kh c = 3 -> kw c = 3 -> strides c = 1 -> dilation c = 1 -> pt c = pl c ->
    (a = 0 \/ a = 1) -> (b = 0 \/ b = 1) ->
    wino_AT N b (fun q => wino_AT N a (fun i => acc_val c w x o_h o_w kb BK (ic c) i q k))
    = conv_sum N c w x (kb * BK + k) (o_h + a) (o_w + b).
  Proof.
    intros Hx Hic Hkh Hkw Hs Hd Hp Ha Hb. unfold acc_val.
    rewrite (AT_ext N b _ (fun q => nsum N (ic c) (fun p => wino_AT N a (fun i =>
       nmul N (wino_BT N q (fun j => wino_BT N i (fun r => tile_val c x o_h o_w p r j)))
              (wino_weight N half c w (kb * BK + k) p i q))))) by (intros q _; apply (AT_nsum N L)).
    rewrite (AT_nsum N L). unfold conv_sum. rewrite Hkh, Hkw.
    rewrite (nsum3_nest N L) by lia. apply nsum_ext. intros p Hpp.
    etransitivity.
    - exact (winograd_2d N L half Hh (tile_val c x o_h o_w p) (weight_at N c w (kb * BK + k) p) a b Ha Hb).
    - apply nsum_ext. intros j Hj. apply nsum_ext. intros l Hl. unfold weight_at. rewrite Hkh, Hkw. f_equal.
      rewrite (zp_to_first N c x) by assumption. unfold tile_val. cbv zeta. rewrite Hs, Hd, Hp.
      replace (o_h + (a + j) - pl c) with ((o_h + a) * 1 + j * 1 - pl c) by ring.
      replace (o_w + (b + l) - pl c) with ((o_w + b) * 1 + l * 1 - pl c) by ring. reflexivity.
  Qed.

  Lemma winograd_ok src out c BK w b act x :
    out <> Temp -> src <> Temp -> conv_dims N c w b x ->
    kh c = 3 -> kw c = 3 -> strides c = 1 -> dilation c = 1 -> pt c = pl c ->
    0 < BK -> nf c mod BK = 0 -> oh c mod 2 = 0 -> ow c mod 2 = 0 ->
    layer_ok (winograd_c N src out c BK (wino_layout N half c BK w) b act) [(src, x)] out
      (nf c * oh c * ow c) (nf c * oh c * ow c) (convolution_hwc N c w b act x).
  Proof.
    intros Ho Hsrc D Hkh Hkw Hs Hd Hpad HBK Hdiv Heh Hew. pose proof D as [D1 D2 D3 D4 D5 D6 D7 D8 D9 D10 D11].
    assert (HNB : nf c / BK * BK = nf c) by (pose proof (Z.div_mod (nf c) BK ltac:(lia)); lia).
    assert (HNB0 : 0 <= nf c / BK) by (apply Z.div_pos; lia).
    assert (HNI : (nf c + BK - 1) / BK = nf c / BK).
    { rewrite <- HNB at 1. replace (nf c / BK * BK + BK - 1) with (nf c / BK * BK + (BK - 1)) by ring.
      apply (decode BK (nf c / BK) (BK - 1)). lia. }
    assert (H2h : oh c / 2 * 2 = oh c) by (pose proof (Z.div_mod (oh c) 2 ltac:(lia)); lia).
    assert (H2w : ow c / 2 * 2 = ow c) by (pose proof (Z.div_mod (ow c) 2 ltac:(lia)); lia).
    rewrite (convolution_hwc_cells N) by assumption. unfold winograd_c.
    apply via_temp_ok; [exact Ho|rewrite zlen_tab by nia; reflexivity|].
    intros m Hm Ht. apply holds_src1 in Hm. rewrite HNI.
    set (F := cell N c (conv_sum N c w x) b).
    match goal with |- exists m1, for_ _ ?B m = _ /\ _ => set (BODY := B) end.
    destruct (for_mono Temp F (nf c / BK) BODY
      (fun kb q => exists t_h t_w a b_ k, 0 <= t_h < oh c / 2 /\ 0 <= t_w < ow c / 2 /\ 0 <= a < 2 /\ 0 <= b_ < 2 /\ 0 <= k < BK /\
         q = ((2 * t_h + a) * ow c + (2 * t_w + b_)) * nf c + kb * BK + k) m) as (m1 & E1 & M1 & R1).
    { exact HNB0. }
    { intros kb m1 Hkb M1. unfold BODY.
      match goal with |- exists m2, for_ _ ?B m1 = _ /\ _ =>
        destruct (for_mono Temp F (oh c / 2) B (fun t_h q => exists t_w a b_ k, 0 <= t_w < ow c / 2 /\ 0 <= a < 2 /\ 0 <= b_ < 2 /\ 0 <= k < BK /\
         q = ((2 * t_h + a) * ow c + (2 * t_w + b_)) * nf c + kb * BK + k) m1) as (m2 & E2 & M2 & R2) end.
      { lia. }
      { intros t_h m2 Hth M2.
        match goal with |- exists m2', for_ _ ?B m2 = _ /\ _ =>
          destruct (for_mono Temp F (ow c / 2) B (fun t_w q => exists a b_ k, 0 <= a < 2 /\ 0 <= b_ < 2 /\ 0 <= k < BK /\
           q = ((2 * t_h + a) * ow c + (2 * t_w + b_)) * nf c + kb * BK + k) m2) as (m3 & E3 & M3 & R3) end.
        { lia. }
        { intros t_w m3 Htw M3. cbv zeta.
          assert (OM : only m m3 Temp).
          { destruct M1 as [O1 _], M2 as [O2 _], M3 as [O3 _]. eapply only_trans; [exact O1|]. eapply only_trans; eassumption. }
          assert (Hm3 : holds m3 src x) by (eapply holds_other; eauto).
          destruct (acc_loop m3 src x c BK w kb (2 * t_h) (2 * t_w) Hm3 D9 D1 HBK Hkb) as (acc & EA & HA).
          cbv zeta in EA. rewrite EA. cbn [bind].
          match goal with |- exists m2, for_ _ ?B m3 = _ /\ _ =>
            destruct (for_mono Temp F 2 B (fun a q => exists b_ k, 0 <= b_ < 2 /\ 0 <= k < BK /\
             q = ((2 * t_h + a) * ow c + (2 * t_w + b_)) * nf c + kb * BK + k) m3) as (m4 & E4 & M4 & R4) end.
          { lia. }
          { intros a m4 Ha M4.
            match goal with |- exists m2, for_ _ ?B m4 = _ /\ _ =>
              destruct (for_mono Temp F 2 B (fun b_ q => exists k, 0 <= k < BK /\
               q = ((2 * t_h + a) * ow c + (2 * t_w + b_)) * nf c + kb * BK + k) m4) as (m5 & E5 & M5 & R5) end.
            { lia. }
            { intros b_ m5 Hb M5.
              match goal with |- exists m2, for_ _ ?B m5 = _ /\ _ =>
                destruct (for_mono Temp F BK B (fun k q => q = ((2 * t_h + a) * ow c + (2 * t_w + b_)) * nf c + kb * BK + k) m5)
                  as (m6 & E6 & M6 & R6) end.
              { lia. }
              { intros k m6 Hk M6. rewrite (rdl_nthZ z b) by (rewrite D11; nia). cbn [bind].
                set (q := ((2 * t_h + a) * ow c + (2 * t_w + b_)) * nf c + kb * BK + k).
                assert (EF : nadd N (wino_AT N b_ (fun q => wino_AT N a (fun i => acc i q k))) (nthZ z b (kb * BK + k)) = F q).
                { rewrite (AT_ext N b_ _ (fun q => wino_AT N a (fun i => acc_val c w x (2 * t_h) (2 * t_w) kb BK (ic c) i q k))).
                  2:{ intros q0 Hq0. apply (AT_ext N). intros i Hi. apply HA; assumption. }
                  rewrite tile_out by (assumption || lia). unfold F, q.
                  replace (((2 * t_h + a) * ow c + (2 * t_w + b_)) * nf c + kb * BK + k)
                    with ((2 * t_h + a) * ow c * nf c + (2 * t_w + b_) * nf c + (kb * BK + k)) by ring.
                  rewrite cell_at; [reflexivity|nia|lia|lia]. }
                rewrite EF. destruct (wr_mono Temp F m6 q) as (m7 & E7 & M7 & R7).
                { destruct M6 as [O6 _], M5 as [O5 _], M4 as [O4 _].
                  rewrite (only_zlen m5 m6 Temp Temp O6), (only_zlen m4 m5 Temp Temp O5), (only_zlen m3 m4 Temp Temp O4), (only_zlen m m3 Temp Temp OM).
                  assert (0 <= (2 * t_h + a) * ow c + (2 * t_w + b_) < oh c * ow c) by nia.
                  assert (0 <= kb * BK + k < nf c) by nia. unfold q. nia. }
                exists m7. split; [exact E7|]. split; [exact M7|]. intros q' ->. exact R7. }
              exists m6. split; [exact E6|]. split; [exact M6|]. intros q (k & Hk & ->). apply (R6 k); auto. }
            exists m5. split; [exact E5|]. split; [exact M5|]. intros q (b_ & k & Hb & Hk & ->). apply (R5 b_); [exact Hb|]. eauto. }
          exists m4. split; [exact E4|]. split; [exact M4|]. intros q (a & b_ & k & Ha & Hb & Hk & ->). apply (R4 a); [exact Ha|]. eauto. }
        exists m3. split; [exact E3|]. split; [exact M3|].
        intros q (t_w & a & b_ & k & Htw & Hr). apply (R3 t_w); [exact Htw|]. eauto. }
      exists m2. split; [exact E2|]. split; [exact M2|].
      intros q (t_h & t_w & a & b_ & k & Hth & Hr). apply (R2 t_h); [exact Hth|]. exists t_w, a, b_, k. exact Hr. }
    exists m1. split; [exact E1|]. destruct M1 as [O1 _]. split; [exact O1|].
    apply holds_cells; [rewrite (only_zlen m m1 Temp Temp O1); nia|]. intros q Hq.
    destruct (split3_range (oh c) (ow c) (nf c) q) as (P1 & P2 & P3 & P4 & P5 & P6); [lia|lia|lia|lia|].
    apply (R1 ((q mod nf c) / BK)).
    { split; [apply Z.div_pos; lia|]. apply Z.div_lt_upper_bound; nia. }
    set (i := q / (ow c * nf c)) in *. set (j := (q / nf c) mod ow c) in *.
    exists (i / 2), (j / 2), (i mod 2), (j mod 2), ((q mod nf c) mod BK).
    pose proof (Z.div_mod i 2 ltac:(lia)). pose proof (Z.mod_pos_bound i 2 ltac:(lia)).
    pose proof (Z.div_mod j 2 ltac:(lia)). pose proof (Z.mod_pos_bound j 2 ltac:(lia)).
    pose proof (idx3_join (ow c) (nf c) q ltac:(lia) P2 P3) as J. fold i j in J. unfold idx3 in J.
    pose proof (Z.div_mod (q mod nf c) BK ltac:(lia)). pose proof (Z.mod_pos_bound (q mod nf c) BK HBK).
    repeat split; try lia.
  Qed.
End Winograd.
