From Coq Require Import ZArith List Lia Bool.
Import ListNotations.
Open Scope Z_scope.
From Verif Require Import CMem Tensor Movement.

Section Proofs.
  Context {V : Type} (d : V).
  Notation mem := (mem V).

  (** ** Copies and layout changes *)
  Lemma copy_c_spec src dst size (m : mem) x : src <> dst -> 0 <= size -> holds m src x -> zlen x = size ->
    size <= zlen (m dst) ->
    exists m', copy_c src dst size m = Some m' /\ only m m' dst /\ holds m' dst x.
  Proof.
    intros Hne Hs Hx Hz Ho. unfold copy_c.
    destruct (fill_holds size (fun k m => v <- rd m src k ;; wr m dst k v) (nthZ d x) dst m) as (m' & E & O & H); [lia|lia| |].
    - intros k m1 Hk [_ O] _ _. rewrite (holds_rd_nthZ d m1 src x k); [reflexivity| |lia].
      eapply holds_eq; [|exact Hx]. apply O. exact Hne.
    - exists m'. rewrite (tab_nthZ d x), Hz. auto.
  Qed.

  (** When source and destination coincide the copy does nothing. *)
  Lemma copy_c_same b size (m : mem) x : 0 <= size -> holds m b x -> zlen x = size ->
    exists m', copy_c b b size m = Some m' /\ only m m' b /\ holds m' b x.
  Proof.
    intros Hs Hx Hz. unfold copy_c. pose proof (holds_zlen m b x Hx) as HL.
    destruct (fill_holds size (fun k m => v <- rd m b k ;; wr m b k v) (nthZ d x) b m) as (m' & E & O & H); [lia|lia| |].
    - intros k m1 Hk O _ P2. rewrite P2 by lia. rewrite (holds_rd_nthZ d m b x k); [reflexivity|exact Hx|lia].
    - exists m'. rewrite (tab_nthZ d x), Hz. auto.
  Qed.

  Lemma constant_c_spec w dst size (m : mem) : 0 <= size -> zlen w = size -> size <= zlen (m dst) ->
    exists m', constant_c w dst size m = Some m' /\ only m m' dst /\ holds m' dst w.
  Proof.
    intros Hs Hz Ho. unfold constant_c.
    destruct (fill_holds size (fun k m => v <- rdl w k ;; wr m dst k v) (nthZ d w) dst m) as (m' & E & O & H); [lia|lia| |].
    - intros k m1 Hk _ _ _. rewrite (rdl_nthZ d w k) by lia. reflexivity.
    - exists m'. split; [exact E|]. split; [exact O|]. rewrite (tab_nthZ d w), Hz. exact H.
  Qed.

  Lemma last_pos_surj C H W p : 0 < C -> 0 < H -> 0 < W -> 0 <= p < C * H * W ->
    exists f i j, 0 <= f < C /\ 0 <= i < H /\ 0 <= j < W /\ (i * W + j) * C + f = p.
  Proof.
    intros HC HH HW Hp. destruct (split3_range H W C p) as (_ & _ & _ & H1 & H2 & H3); try lia.
    exists (p mod C), (p / (W * C)), ((p / C) mod W). split; [lia|]. split; [lia|]. split; [lia|].
    rewrite <- (idx3_join W C p) at 4 by lia. unfold idx3. ring.
  Qed.

  Lemma last_pos_inj C H W f i j f' i' j' :
    0 <= f < C -> 0 <= i < H -> 0 <= j < W -> 0 <= f' < C -> 0 <= i' < H -> 0 <= j' < W ->
    (i * W + j) * C + f = (i' * W + j') * C + f' -> f = f' /\ i = i' /\ j = j'.
  Proof.
    intros Hf Hi Hj Hf' Hi' Hj' E.
    assert (E2 : idx3 W C i j f = idx3 W C i' j' f') by (unfold idx3; lia).
    destruct (idx3_split W C i j f) as (A1 & A2 & A3); try lia.
    destruct (idx3_split W C i' j' f') as (B1 & B2 & B3); try lia.
    rewrite E2 in A1, A2, A3. lia.
  Qed.

  Lemma last_pos_range C H W f i j : 0 <= f < C -> 0 <= i < H -> 0 <= j < W ->
    0 <= (i * W + j) * C + f < C * H * W.
  Proof.
    intros Hf Hi Hj. pose proof (idx3_range H W C i j f Hi Hj Hf) as R. unfold idx3 in R.
    replace (C * H * W) with (H * W * C) by ring. lia.
  Qed.

  Lemma to_last_flat C H W x : 0 <= C -> 0 <= H -> 0 <= W ->
    to_last d C H W x = tab (C * H * W) (fun p => at3 d H W x (p mod C) (p / (W * C)) ((p / C) mod W)).
  Proof. intros. unfold to_last, tab3. replace (H * W * C) with (C * H * W) by ring. reflexivity. Qed.

  Lemma first_to_last_spec src dst C H W (m : mem) x :
    src <> dst -> 0 <= C -> 0 <= H -> 0 <= W -> holds m src x -> zlen x = C * H * W ->
    C * H * W <= zlen (m dst) ->
    exists m', first_to_last_c src dst C H W m = Some m' /\ only m m' dst /\ holds m' dst (to_last d C H W x).
  Proof.
    intros Hne HC HH HW Hx Hz Ho. rewrite to_last_flat by assumption.
    apply (scatter3 C H W _ (fun f i j => (i * W + j) * C + f)); try assumption.
    - intros. apply last_pos_range; assumption.
    - intros p Hp. apply last_pos_surj; try assumption; nia.
    - intros f i j f' i' j' A1 A2 A3 A4 A5 A6 A7. exact (last_pos_inj C H W f i j f' i' j' A1 A2 A3 A4 A5 A6 A7).
    - intros f i j m' Hf Hi Hj O.
      rewrite (rd_at3 d m' src x C H W f i j); try assumption; [|eapply holds_other; eauto|unfold idx3; ring].
      cbn [bind]. f_equal. 
      destruct (idx3_split W C i j f) as (A1 & A2 & A3); try lia. unfold idx3 in *.
      replace ((i * W + j) * C + f) with (f + C * (j + W * i)) by ring. rewrite A1, A2, A3. reflexivity.
  Qed.

  Lemma last_to_first_spec src dst C H W (m : mem) x :
    src <> dst -> 0 <= C -> 0 <= H -> 0 <= W -> holds m src x -> zlen x = C * H * W ->
    C * H * W <= zlen (m dst) ->
    exists m', last_to_first_c src dst C H W m = Some m' /\ only m m' dst /\ holds m' dst (to_first d C H W x).
  Proof.
    intros Hne HC HH HW Hx Hz Ho. unfold to_first.
    apply fill3; try assumption. intros f i j m' Hf Hi Hj O _ _.
    rewrite (rd_at3 d m' src x H W C i j f); try assumption; [| |lia|unfold idx3; ring].
    - cbn [bind]. f_equal. unfold idx3. ring.
    - eapply holds_other; eauto.
  Qed.

  Lemma zlen_to_last C H W x : 0 <= C -> 0 <= H -> 0 <= W -> zlen (to_last d C H W x) = C * H * W.
  Proof. intros. unfold to_last. rewrite zlen_tab3 by assumption. ring. Qed.
  Lemma zlen_to_first C H W x : 0 <= C -> 0 <= H -> 0 <= W -> zlen (to_first d C H W x) = C * H * W.
  Proof. intros. unfold to_first. apply zlen_tab3; assumption. Qed.

  Lemma to_first_to_last C H W x : 0 <= C -> 0 <= H -> 0 <= W -> zlen x = C * H * W ->
    to_first d C H W (to_last d C H W x) = x.
  Proof.
    intros HC HH HW Hz. apply (tensor_ext d C H W); auto; [apply zlen_to_first; assumption|].
    intros c h w Hc Hh Hw. unfold to_first, to_last. rewrite !at3_tab3 by assumption. reflexivity.
  Qed.
  Lemma to_last_to_first C H W x : 0 <= C -> 0 <= H -> 0 <= W -> zlen x = C * H * W ->
    to_last d C H W (to_first d C H W x) = x.
  Proof.
    intros HC HH HW Hz. apply (tensor_ext d H W C); auto; try nia.
    - rewrite zlen_to_last by assumption. ring.
    - intros c h w Hc Hh Hw. unfold to_first, to_last. rewrite !at3_tab3 by assumption. reflexivity.
  Qed.

  (** ** Transpose *)
  Lemma perm_cases p1 p2 p3 : is_perm p1 p2 p3 ->
    (p1 = 1 /\ p2 = 2 /\ p3 = 3) \/ (p1 = 1 /\ p2 = 3 /\ p3 = 2) \/ (p1 = 2 /\ p2 = 1 /\ p3 = 3) \/
    (p1 = 2 /\ p2 = 3 /\ p3 = 1) \/ (p1 = 3 /\ p2 = 1 /\ p3 = 2) \/ (p1 = 3 /\ p2 = 2 /\ p3 = 1).
  Proof. unfold is_perm. lia. Qed.

  Lemma transpose_ok src out C H W p1 p2 p3 act x :
    out <> Temp -> src <> Temp -> 0 <= C -> 0 <= H -> 0 <= W -> is_perm p1 p2 p3 -> zlen x = C * H * W ->
    layer_ok (transpose_c src out C H W p1 p2 p3 act) [(src, x)] out (C * H * W) (C * H * W)
      (map act (np_transpose d C H W p1 p2 p3 x)).
  Proof.
    intros Ho Hs HC HH HW HP Hz.
    assert (HD : dim C H W p1 * dim C H W p2 * dim C H W p3 = C * H * W).
    { destruct (perm_cases _ _ _ HP) as [(-> & -> & ->)|[(-> & -> & ->)|[(-> & -> & ->)|[(-> & -> & ->)|[(-> & -> & ->)|(-> & -> & ->)]]]]];
        unfold dim; cbn [Z.eqb Pos.eqb]; ring. }
    assert (HN : forall p, 0 <= dim C H W p).
    { intros p. unfold dim. destruct (p =? 1), (p =? 2); assumption. }
    unfold transpose_c. rewrite HD.
    destruct (transpose_abc p1 p2 p3) as [[a b] c] eqn:Eabc.
    apply via_temp_ok; [exact Ho| |].
    - unfold np_transpose. rewrite zlen_tab3 by apply HN. exact HD.
    - intros m Hm Ht. apply holds_src1 in Hm. unfold np_transpose.
      apply fill3; try apply HN; [lia|].
      intros f i j m' Hf Hi Hj O _ _.
      assert (Hm' : holds m' src x) by (eapply holds_other; eauto).
      destruct (perm_cases _ _ _ HP) as [(-> & -> & ->)|[(-> & -> & ->)|[(-> & -> & ->)|[(-> & -> & ->)|[(-> & -> & ->)|(-> & -> & ->)]]]]];
        cbn in Eabc; injection Eabc as <- <- <-; unfold dim, indices, inv_index in *; cbn [Z.eqb Pos.eqb] in *;
        (erewrite (rd_at3 d m' src x C H W); [cbn [bind]; reflexivity|eassumption|eassumption| | | |unfold idx3; reflexivity]; assumption).
  Qed.

  (** ** Tile *)
  Lemma tile_ok src out C H W rc rh rw act x :
    out <> Temp -> src <> Temp -> 0 < C -> 0 < H -> 0 < W -> 0 < rc -> 0 < rh -> 0 < rw -> zlen x = C * H * W ->
    let n := (rc * C) * (rh * H) * (rw * W) in
    layer_ok (tile_c src out C H W rc rh rw act) [(src, x)] out n n (map act (np_tile d C H W rc rh rw x)).
  Proof.
    intros Ho Hs HC HH HW Hrc Hrh Hrw Hz n.
    unfold tile_c. apply via_temp_ok; [exact Ho| |].
    - unfold np_tile. rewrite zlen_tab3 by nia. reflexivity.
    - intros m Hm Ht. apply holds_src1 in Hm. unfold np_tile.
      apply fill3; try nia.
      intros f i j m' Hf Hi Hj O _ _.
      assert (Hm' : holds m' src x) by (eapply holds_other; eauto).
      rewrite (rd_at3 d m' src x C H W (f mod C) (i mod H) (j mod W)); try assumption;
        try (apply Z.mod_pos_bound; lia); reflexivity.
  Qed.

  (** ** GatherElements *)
  Lemma gather_elements_ok src out axis C H W OC OH OW inds act x :
    out <> Temp -> src <> Temp -> 1 <= axis <= 3 ->
    0 <= OC -> 0 <= OH -> 0 <= OW -> zlen inds = OC * OH * OW -> zlen x = C * H * W ->
    (axis <> 1 -> OC = C) -> (axis <> 2 -> OH = H) -> (axis <> 3 -> OW = W) ->
    (forall k, 0 <= k < zlen inds -> 0 <= nthZ 0 inds k < dim C H W axis) ->
    layer_ok (gather_elements_c src out axis H W OC OH OW inds act) [(src, x)] out (OC * OH * OW) (OC * OH * OW)
      (map act (gather_elements_py d axis H W OC OH OW inds x)).
  Proof.
    intros Ho Hs Hax HC HH HW Hi Hz A1 A2 A3 Hin.
    unfold gather_elements_c. apply via_temp_ok; [exact Ho| |].
    - unfold gather_elements_py. rewrite zlen_tab3 by assumption. reflexivity.
    - intros m Hm Ht. apply holds_src1 in Hm. unfold gather_elements_py.
      apply fill3; try assumption.
      intros f i j m' Hf Hi' Hj O _ _.
      assert (Hm' : holds m' src x) by (eapply holds_other; eauto).
      rewrite (rdl_at3 0 inds OC OH OW f i j); try assumption; [|unfold idx3; ring].
      cbn [bind].
      assert (Hq : 0 <= at3 0 OH OW inds f i j < dim C H W axis).
      { unfold at3. apply Hin. rewrite Hi. apply idx3_range; assumption. }
      unfold dim in Hq.
      destruct (Z.eqb_spec axis 1); [|destruct (Z.eqb_spec axis 2)].
      + rewrite (rd_at3 d m' src x C H W (at3 0 OH OW inds f i j) i j); try assumption;
          rewrite ?A2, ?A3 in * by lia; try assumption; try lia; reflexivity.
      + rewrite (rd_at3 d m' src x C H W f (at3 0 OH OW inds f i j) j); try assumption;
          rewrite ?A1, ?A3 in * by lia; try assumption; try lia; reflexivity.
      + rewrite (rd_at3 d m' src x C H W f i (at3 0 OH OW inds f i j)); try assumption;
          rewrite ?A1, ?A2 in * by lia; try assumption; try lia; reflexivity.
  Qed.

  (** ** Flatten *)
  Lemma flatten_ok out cl C H W x :
    out <> Temp -> 0 <= C -> 0 <= H -> 0 <= W -> zlen x = C * H * W ->
    layer_ok (flatten_c out cl C H W) [(out, x)] out (C * H * W) (C * H * W) (flatten_py d cl C H W x).
  Proof.
    intros Ho HC HH HW Hz. unfold flatten_c, flatten_py. destruct cl.
    - rewrite <- (map_id (to_last d C H W x)). apply (via_temp_ok _ _ _ _ (fun v => v)); [exact Ho| |].
      + apply zlen_to_last; assumption.
      + intros m Hm Ht. apply holds_src1 in Hm.
        destruct (first_to_last_spec out Temp C H W m x) as (m' & E & O & Hh); auto.
        exists m'. split; [|auto]. rewrite <- E. unfold first_to_last_c.
        apply for_ext. intros f s Hf. apply for_ext. intros i s' Hi. apply for_ext. intros j s'' Hj.
        replace ((f * H + i) * W + j) with ((i + H * f) * W + j) by ring. reflexivity.
    - intros m Hm _ _. apply holds_src1 in Hm. exists m. auto.
  Qed.
End Proofs.

Section Proofs2.
  Context {V : Type} (d : V).
  Notation mem := (mem V).

  (** ** Gather *)
  Lemma gather_store_spec src act a (m : mem) p v : src <> Temp ->
    rd m src a = Some v -> 0 <= p < zlen (m Temp) ->
    exists m2, gather_store src act a (m, p) = Some (m2, p + 1) /\ stores m m2 Temp p (act v).
  Proof.
    intros Hs Hv Hp. unfold gather_store. rewrite Hv. cbn [bind].
    destruct (wr_stores m Temp p v Hp) as (m1 & E1 & S1). rewrite E1. cbn [bind].
    destruct S1 as (O1 & R1 & S1'). rewrite R1. cbn [bind].
    destruct (wr_stores m1 Temp p (act v)) as (m2 & E2 & S2); [destruct O1; lia|].
    rewrite E2. cbn [bind]. exists m2. split; [reflexivity|]. eapply stores_trans; [|exact S2]. split; eauto.
  Qed.

  Lemma gather_ok src out axis C H W OC OH OW inds act x :
    out <> Temp -> src <> Temp -> 1 <= axis <= 3 ->
    0 <= C -> 0 <= H -> 0 <= W -> zlen x = C * H * W ->
    OC = (if axis =? 1 then zlen inds else C) ->
    OH = (if axis =? 2 then zlen inds else H) ->
    OW = (if axis =? 3 then zlen inds else W) ->
    (forall k, 0 <= k < zlen inds -> 0 <= nthZ 0 inds k < dim C H W axis) ->
    layer_ok (gather_c src out axis C H W OC OH OW inds act) [(src, x)] out (OC * OH * OW) (OC * OH * OW)
      (map act (np_take d axis C H W inds x)).
  Proof.
    intros Ho Hs Hax HC HH HW Hz EC EH EW Hin m Hm Ht Hout. apply holds_src1 in Hm.
    pose proof (zlen_nonneg inds) as Hni.
    assert (G : exists m', gather_loops src axis C H W OC OH OW inds act (m, 0) = Some (m', OC * OH * OW) /\
              only m m' Temp /\ holds m' Temp (map act (np_take d axis C H W inds x)) /\
              zlen (np_take d axis C H W inds x) = OC * OH * OW).
    { unfold gather_loops, np_take, dim in *.
      destruct (Z.eqb_spec axis 1); [|destruct (Z.eqb_spec axis 2)].
      - destruct (Z.eqb_spec axis 2), (Z.eqb_spec axis 3); try lia. subst OC OH OW.
        destruct (fill3_counter (zlen inds) H W (fun k i j => gather_store src act (j + W * (i + H * nthZ 0 inds k)))
           (fun k i j => act (at3 d H W x (nthZ 0 inds k) i j)) Temp m) as (m' & E & O & Hh); auto.
        + intros f i j m' Hf Hi Hj O. apply gather_store_spec; [exact Hs| |].
          * apply (rd_at3 d m' src x C H W); auto. eapply holds_other; eauto.
          * rewrite (only_zlen m m' Temp Temp O). pose proof (idx3_range (zlen inds) H W f i j). lia.
        + exists m'. split; [|split; [exact O|split; [rewrite map_tab3; exact Hh|apply zlen_tab3; assumption]]].
          rewrite <- E. apply for_ext. intros k s Hk. rewrite (rdl_nthZ 0 inds k) by lia. reflexivity.
      - destruct (Z.eqb_spec axis 3); try lia. subst OC OH OW.
        destruct (fill3_counter C (zlen inds) W (fun f k j => gather_store src act (j + W * (nthZ 0 inds k + H * f)))
           (fun f k j => act (at3 d H W x f (nthZ 0 inds k) j)) Temp m) as (m' & E & O & Hh); auto.
        + intros f i j m' Hf Hi Hj O. apply gather_store_spec; [exact Hs| |].
          * apply (rd_at3 d m' src x C H W); auto. eapply holds_other; eauto.
          * rewrite (only_zlen m m' Temp Temp O). pose proof (idx3_range C (zlen inds) W f i j). lia.
        + exists m'. split; [|split; [exact O|split; [rewrite map_tab3; exact Hh|apply zlen_tab3; assumption]]].
          rewrite <- E. apply for_ext. intros f s Hf. apply for_ext. intros k s' Hk. rewrite (rdl_nthZ 0 inds k) by lia. reflexivity.
      - destruct (Z.eqb_spec axis 3); try lia. subst OC OH OW.
        destruct (fill3_counter C H (zlen inds) (fun f i k => gather_store src act (nthZ 0 inds k + W * (i + H * f)))
           (fun f i k => act (at3 d H W x f i (nthZ 0 inds k))) Temp m) as (m' & E & O & Hh); auto.
        + intros f i j m' Hf Hi Hj O. apply gather_store_spec; [exact Hs| |].
          * apply (rd_at3 d m' src x C H W); auto. eapply holds_other; eauto.
          * rewrite (only_zlen m m' Temp Temp O). pose proof (idx3_range C H (zlen inds) f i j). lia.
        + exists m'. split; [|split; [exact O|split; [rewrite map_tab3; exact Hh|apply zlen_tab3; assumption]]].
          rewrite <- E. apply for_ext. intros f s Hf. apply for_ext. intros i s' Hi. apply for_ext. intros k s'' Hk.
          rewrite (rdl_nthZ 0 inds k) by lia. reflexivity. }
    destruct G as (m1 & E1 & O1 & H1 & L1).
    unfold gather_c. rewrite E1. cbn [bind fst].
    destruct (copy_from_temp_spec (OC * OH * OW) (fun v => v) out m1 (map act (np_take d axis C H W inds x)))
      as (m2 & E2 & O2 & H2); auto.
    - rewrite <- L1. apply zlen_nonneg.
    - rewrite zlen_map. exact L1.
    - rewrite (only_zlen m m1 Temp out O1). exact Hout.
    - rewrite map_id in H2. exists m2. split; [exact E2|]. split; [exact H2|]. split.
      + intros b. rewrite (only_zlen m1 m2 out b O2). apply (only_zlen m m1 Temp b O1).
      + intros b Hb1 Hb2. destruct O2 as [_ O2]. destruct O1 as [_ O1]. rewrite O2, O1; auto.
  Qed.
End Proofs2.

Section Concat.
  Context {V : Type} (d : V).
  Notation mem := (mem V).

  (** The element found at (f,i,j) when the operands are laid out one after the
      other along [axis], the first one starting at [inf]. *)
  Fixpoint slice_at (axis inf : Z) (xs : list (shaped (V := V))) (f i j : Z) : V :=
    match xs with
    | [] => d
    | (c, h, w, x) :: r =>
      let pos := indices axis f i j in
      if pos <? inf + dim c h w axis then
        at3 d h w x (if axis =? 1 then f - inf else f) (if axis =? 2 then i - inf else i)
                    (if axis =? 3 then j - inf else j)
      else slice_at axis (inf + dim c h w axis) r f i j
    end.

  Definition total (axis : Z) (xs : list (shaped (V := V))) : Z :=
    fold_right (fun s a => let '(c, h, w, _) := s in dim c h w axis + a) 0 xs.

  (** All operands fit a (OC,OH,OW) result except along [axis]. *)
  Definition fits (axis OC OH OW : Z) (s : shaped (V := V)) : Prop :=
    let '(c, h, w, x) := s in
    0 <= c /\ 0 <= h /\ 0 <= w /\ zlen x = c * h * w /\
    (axis <> 1 -> c = OC) /\ (axis <> 2 -> h = OH) /\ (axis <> 3 -> w = OW).

  Definition shape_of (o : operand) (x : list V) : shaped := (op_c o, op_h o, op_w o, x).

  Lemma total_nonneg axis OC OH OW xs : Forall (fits axis OC OH OW) xs -> 0 <= total axis xs.
  Proof.
    induction 1 as [|[[[c h] w] x] xs (Hc & Hh & Hw & _) _ IH]; cbn [total fold_right]; [lia|].
    fold (total axis xs). unfold dim. destruct (axis =? 1), (axis =? 2); lia.
  Qed.

  Lemma concat_body_skip axis OH OW f i j : forall ops inf (m : mem),
    Forall (fun o => 0 <= op_c o /\ 0 <= op_h o /\ 0 <= op_w o) ops ->
    indices axis f i j < inf -> concat_body axis OH OW f i j inf ops m = Some m.
  Proof.
    induction ops as [|o ops IH]; intros inf m Hd Hp; cbn [concat_body]; [reflexivity|].
    inversion Hd as [|? ? Ho Hd']; subst. fold (indices axis f i j).
    destruct (Z.geb_spec (indices axis f i j) inf); [lia|]. rewrite andb_false_r. cbn [bind].
    apply IH; [exact Hd'|]. unfold op_dim, dim. destruct (axis =? 1), (axis =? 2); lia.
  Qed.

  Lemma concat_body_spec axis OC OH OW f i j : 1 <= axis <= 3 ->
    0 <= f < OC -> 0 <= i < OH -> 0 <= j < OW ->
    forall ops inf (m : mem), 0 <= inf ->
    Forall (fun ox => op_src (fst ox) <> Temp /\ holds m (op_src (fst ox)) (snd ox)) ops ->
    Forall (fits axis OC OH OW) (map (fun ox => shape_of (fst ox) (snd ox)) ops) ->
    inf <= indices axis f i j < inf + total axis (map (fun ox => shape_of (fst ox) (snd ox)) ops) ->
    OC * OH * OW <= zlen (m Temp) ->
    exists m2, concat_body axis OH OW f i j inf (map fst ops) m = Some m2 /\
      stores m m2 Temp (idx3 OH OW f i j)
        (slice_at axis inf (map (fun ox => shape_of (fst ox) (snd ox)) ops) f i j).
  Proof.
    intros Hax Hf Hi Hj. induction ops as [|[o x] ops IH]; intros inf m Hinf Hh Hfit Hp Ht.
    { cbn in Hp. lia. }
    cbn [map fst snd] in *. inversion Hh as [|? ? [Hs Hx] Hh']; subst. inversion Hfit as [|? ? Hfo Hfit']; subst.
    cbn [concat_body slice_at shape_of] in *. fold (indices axis f i j). unfold op_dim.
    cbn [fst snd] in *. destruct Hfo as (Hc & Hhh & Hw & Hz & F1 & F2 & F3).
    destruct (Z.ltb_spec (indices axis f i j) (inf + dim (op_c o) (op_h o) (op_w o) axis)) as [Hlt|Hge].
    - destruct (Z.geb_spec (indices axis f i j) inf); [|lia]. cbn [andb].
      assert (HR : (if axis =? 1 then rd m (op_src o) (j + op_w o * (i + op_h o * (f - inf)))
                    else if axis =? 2 then rd m (op_src o) (j + op_w o * ((i - inf) + op_h o * f))
                    else rd m (op_src o) ((j - inf) + op_w o * (i + op_h o * f)))
               = Some (at3 d (op_h o) (op_w o) x (if axis =? 1 then f - inf else f)
                        (if axis =? 2 then i - inf else i) (if axis =? 3 then j - inf else j))).
      { unfold indices, dim in *.
        destruct (Z.eqb_spec axis 1); [|destruct (Z.eqb_spec axis 2)]; destruct (Z.eqb_spec axis 3); try lia;
          destruct (Z.eqb_spec axis 2); try lia;
          (eapply (rd_at3 d m (op_src o) x (op_c o)); [exact Hx|exact Hz|..]; try (unfold idx3; ring); lia). }
      rewrite HR. cbn [bind].
      destruct (wr_stores m Temp (idx3 OH OW f i j)
        (at3 d (op_h o) (op_w o) x (if axis =? 1 then f - inf else f)
                        (if axis =? 2 then i - inf else i) (if axis =? 3 then j - inf else j))) as (m2 & E2 & S2).
      { pose proof (idx3_range OC OH OW f i j Hf Hi Hj). lia. }
      unfold idx3 in E2. rewrite E2. cbn [bind]. exists m2. split; [|exact S2].
      apply concat_body_skip; [|exact Hlt].
      clear - Hfit'. induction ops as [|[o' x'] ops IH]; cbn [map fst snd] in *; [constructor|].
      inversion Hfit' as [|? ? A Hr]; subst. unfold fits, shape_of in A. constructor; [|auto]. cbn. tauto.
    - cbn [andb bind]. apply IH; auto.
      + unfold dim. destruct (axis =? 1), (axis =? 2); lia.
      + cbn [total fold_right shape_of] in Hp. fold (total axis (map (fun ox => shape_of (fst ox) (snd ox)) ops)) in Hp. lia.
  Qed.

  Definition concat_spec (axis OC OH OW : Z) (xs : list shaped) : list V :=
    tab3 OC OH OW (fun f i j => slice_at axis 0 xs f i j).

  Lemma concat_ok out axis OC OH OW act (ops : list (operand * list V)) :
    out <> Temp -> 1 <= axis <= 3 -> 0 <= OC -> 0 <= OH -> 0 <= OW ->
    Forall (fun ox => op_src (fst ox) <> Temp) ops ->
    Forall (fits axis OC OH OW) (map (fun ox => shape_of (fst ox) (snd ox)) ops) ->
    dim OC OH OW axis = total axis (map (fun ox => shape_of (fst ox) (snd ox)) ops) ->
    layer_ok (concat_c out axis OC OH OW (map fst ops) act)
      (map (fun ox => (op_src (fst ox), snd ox)) ops) out (OC * OH * OW) (OC * OH * OW)
      (map act (concat_spec axis OC OH OW (map (fun ox => shape_of (fst ox) (snd ox)) ops))).
  Proof.
    intros Ho Hax HC HH HW Hs Hfit Htot. unfold concat_c. apply via_temp_ok; [exact Ho| |].
    - unfold concat_spec. rewrite zlen_tab3 by assumption. reflexivity.
    - intros m Hm Ht. apply fill3_stores; try assumption.
      intros f i j m' Hf Hi Hj O. apply (concat_body_spec axis OC); try assumption; try lia.
      + apply Forall_forall. intros ox Hin. rewrite Forall_forall in Hs. split; [apply Hs; exact Hin|].
        apply (holds_other m m' Temp); [exact O|apply Hs; exact Hin|].
        rewrite Forall_forall in Hm. apply (Hm (op_src (fst ox), snd ox)).
        apply in_map_iff. exists ox. auto.
      + rewrite <- Htot. unfold indices, dim. destruct (axis =? 1); [lia|]. destruct (axis =? 2); lia.
      + rewrite (only_zlen m m' Temp Temp O). exact Ht.
  Qed.

  (** The Python fold of binary concatenations gives the same tensor. *)
  Lemma np_concat_fold axis OC OH OW : 1 <= axis <= 3 -> forall xs acc,
    fits axis OC OH OW acc -> Forall (fits axis OC OH OW) xs ->
    exists c h w x, np_concat d axis acc xs = (c, h, w, x) /\
      c = (if axis =? 1 then total axis (acc :: xs) else fst (fst (fst acc))) /\
      h = (if axis =? 2 then total axis (acc :: xs) else snd (fst (fst acc))) /\
      w = (if axis =? 3 then total axis (acc :: xs) else snd (fst acc)) /\
      0 <= c /\ 0 <= h /\ 0 <= w /\ zlen x = c * h * w /\
      forall f i j, 0 <= f < c -> 0 <= i < h -> 0 <= j < w -> at3 d h w x f i j = slice_at axis 0 (acc :: xs) f i j.
  Proof.
    intros Hax. induction xs as [|[[[cb hb] wb] xb] xs IH]; intros [[[ca ha] wa] xa] Ha Hxs; pose proof Ha as Ha0; unfold fits in Ha.
    - exists ca, ha, wa, xa. cbn [np_concat fold_left total fold_right fst snd slice_at].
      destruct Ha as (A1 & A2 & A3 & A4 & _). split; [reflexivity|].
      unfold dim. destruct (Z.eqb_spec axis 1); [|destruct (Z.eqb_spec axis 2)]; destruct (Z.eqb_spec axis 3); destruct (Z.eqb_spec axis 2); try lia;
        (repeat split; try lia); intros f i j Hf Hi Hj; unfold indices, dim;
        destruct (Z.eqb_spec axis 1); destruct (Z.eqb_spec axis 2); try lia;
        (match goal with |- context [if ?a <? ?b then _ else _] => destruct (Z.ltb_spec a b); [|lia] end);
        rewrite ?Z.sub_0_r; reflexivity.
    - inversion Hxs as [|? ? Hb Hxs']; subst. unfold fits in Hb.
      assert (Hacc : fits axis OC OH OW (np_concat2 d axis (ca, ha, wa, xa) (cb, hb, wb, xb))).
      { destruct Ha as (A1 & A2 & A3 & A4 & A5 & A6 & A7), Hb as (B1 & B2 & B3 & B4 & B5 & B6 & B7). cbn [np_concat2].
        destruct (Z.eqb_spec axis 1); [|destruct (Z.eqb_spec axis 2)]; unfold fits;
          rewrite zlen_tab3 by lia; repeat split; try lia; intros; try lia; auto. }
      clear Ha0. destruct (IH _ Hacc Hxs') as (c & h & w & x & E & Ec & Eh & Ew & P1 & P2 & P3 & P4 & P5).
      exists c, h, w, x. cbn [np_concat fold_left] in *. split; [exact E|].
      destruct Ha as (A1 & A2 & A3 & A4 & A5 & A6 & A7), Hb as (B1 & B2 & B3 & B4 & B5 & B6 & B7).
      pose proof (total_nonneg axis OC OH OW xs Hxs') as Tn.
      cbn [total fold_right] in *. fold (total axis xs) in *.
      unfold np_concat2 in *. unfold dim in *.
      destruct (Z.eqb_spec axis 1); [|destruct (Z.eqb_spec axis 2)]; destruct (Z.eqb_spec axis 3); try lia;
        try (destruct (Z.eqb_spec axis 2); try lia); cbn [fst snd] in *; cbn [total fold_right] in *; fold (total axis xs) in *;
        unfold dim in *; 
        repeat match goal with
        | H : ?a = ?b, H2 : ?a <> ?b |- _ => contradiction
        | H : ?a = 1 |- _ => subst a | H : ?a = 2 |- _ => subst a | H : ?a = 3 |- _ => subst a end; cbn [Z.eqb Pos.eqb] in *;
        (repeat split; try lia); intros f i j Hf Hi Hj; rewrite (P5 f i j Hf Hi Hj); cbn [slice_at]; unfold indices, dim;
        cbn [Z.eqb Pos.eqb].
      + destruct (Z.ltb_spec f (0 + (ca + cb))).
        * rewrite at3_tab3 by lia. rewrite Z.sub_0_r. destruct (Z.ltb_spec f ca), (Z.ltb_spec f (0 + ca)); try lia; [reflexivity|].
          destruct (Z.ltb_spec f (0 + ca + cb)); [|lia]. reflexivity.
        * destruct (Z.ltb_spec f (0 + ca)); [lia|]. destruct (Z.ltb_spec f (0 + ca + cb)); [lia|].
          rewrite ?Z.add_assoc; reflexivity.
      + destruct (Z.ltb_spec i (0 + (ha + hb))).
        * rewrite at3_tab3 by lia. rewrite Z.sub_0_r. destruct (Z.ltb_spec i ha), (Z.ltb_spec i (0 + ha)); try lia; [reflexivity|].
          destruct (Z.ltb_spec i (0 + ha + hb)); [|lia]. reflexivity.
        * destruct (Z.ltb_spec i (0 + ha)); [lia|]. destruct (Z.ltb_spec i (0 + ha + hb)); [lia|].
          rewrite ?Z.add_assoc; reflexivity.
      + destruct (Z.ltb_spec j (0 + (wa + wb))).
        * rewrite at3_tab3 by lia. rewrite Z.sub_0_r. destruct (Z.ltb_spec j wa), (Z.ltb_spec j (0 + wa)); try lia; [reflexivity|].
          destruct (Z.ltb_spec j (0 + wa + wb)); [|lia]. reflexivity.
        * destruct (Z.ltb_spec j (0 + wa)); [lia|]. destruct (Z.ltb_spec j (0 + wa + wb)); [lia|].
          rewrite ?Z.add_assoc; reflexivity.
  Qed.

  (** np_concat as a flat tensor equals the slice specification. *)
  Lemma np_concat_spec axis OC OH OW x0 xs : 1 <= axis <= 3 -> 0 <= OC -> 0 <= OH -> 0 <= OW ->
    Forall (fits axis OC OH OW) (x0 :: xs) -> dim OC OH OW axis = total axis (x0 :: xs) ->
    np_concat d axis x0 xs = (OC, OH, OW, concat_spec axis OC OH OW (x0 :: xs)).
  Proof.
    intros Hax HC HH HW Hf Ht. inversion Hf as [|? ? H0 Hxs]; subst.
    destruct (np_concat_fold axis OC OH OW Hax xs x0 H0 Hxs) as (c & h & w & x & E & Ec & Eh & Ew & P1 & P2 & P3 & P4 & P5).
    rewrite E. destruct x0 as [[[c0 h0] w0] d0]. unfold fits in H0. destruct H0 as (A1 & A2 & A3 & A4 & A5 & A6 & A7).
    rewrite <- Ht in *. cbn [fst snd] in *. unfold dim in *.
    assert (Ed : c = OC /\ h = OH /\ w = OW).
    { destruct (Z.eqb_spec axis 1); [|destruct (Z.eqb_spec axis 2)]; destruct (Z.eqb_spec axis 3); try lia;
        try (destruct (Z.eqb_spec axis 2); try lia); repeat split; subst; auto. }
    destruct Ed as (-> & -> & ->). f_equal.
    apply (tensor_ext d OC OH OW); auto.
    - apply zlen_tab3; assumption.
    - intros f i j Hf' Hi Hj. rewrite P5 by assumption. unfold concat_spec. rewrite at3_tab3 by assumption. reflexivity.
  Qed.
End Concat.
