(** * Property C61: ONNX element-wise nodes with numpy broadcasting between
    tensors of any ranks are imported with their ONNX meaning. *)
From Coq Require Import ZArith List Lia Bool.
Import ListNotations.
Open Scope Z_scope.
From Verif Require Import CMem Tensor Num NumInst Activation Broadcast BroadcastProofs PropertiesBroadcast PropertiesMovement
  OnnxSpec OnnxOps OnnxOpsProofs.

Definition to_shape (s : Z * Z * Z) : shape := let '(c, h, w) := s in mkShape c h w.

(** ** Alignment survives the extension to rank four. *)
Lemma combine_ones n : forall ds (l : list Z), (n <= length l)%nat ->
  map (fun ni => if fst ni =? 1 then 0 else snd ni) (List.combine (repeat 1 n ++ ds) l) =
  repeat 0 n ++ map (fun ni => if fst ni =? 1 then 0 else snd ni) (List.combine ds (skipn n l)).
Proof.
  induction n as [|n IH]; intros ds l HL; [reflexivity|]. destruct l as [|i l]; cbn [length] in HL; [lia|].
  cbn [repeat app List.combine map fst snd skipn]. rewrite IH by lia. reflexivity.
Qed.
Lemma skipn_repeat_app n m (l : list Z) : (m <= n)%nat -> skipn n (repeat 0 m ++ l) = skipn (n - m) l.
Proof.
  intros H. rewrite skipn_app, repeat_length. rewrite skipn_all2 by (rewrite repeat_length; exact H). reflexivity.
Qed.
Lemma aligned_lift ds idx : (length ds <= length idx <= 4)%nat ->
  aligned (repeat 1 (4 - length ds) ++ ds) (repeat 0 (4 - length idx) ++ idx) = repeat 0 (4 - length ds) ++ aligned ds idx.
Proof.
  intros HL. unfold aligned at 1. rewrite !app_length, !repeat_length. replace (4 - length idx + length idx - (4 - length ds + length ds))%nat with 0%nat by lia.
  cbn [skipn]. rewrite combine_ones by (rewrite app_length, repeat_length; lia). f_equal. unfold aligned. f_equal. f_equal.
  rewrite skipn_repeat_app by lia. f_equal. lia.
Qed.
Lemma nth_repeat_lt (a b : Z) n : forall q, (q < n)%nat -> nth q (repeat a n) b = a.
Proof. induction n as [|n IH]; intros q Hq; [lia|]. destruct q; cbn [repeat nth]; [reflexivity|apply IH; lia]. Qed.
Lemma aligned_dim_lift ods ds q : (length ds <= length ods <= 4)%nat -> (q < length ods)%nat ->
  aligned_dim ods ds q = coord (4 - length ods + q) (repeat 1 (4 - length ds) ++ ds).
Proof.
  intros HL Hq. unfold aligned_dim, coord. destruct (Nat.ltb_spec q (length ods - length ds)).
  - rewrite app_nth1 by (rewrite repeat_length; lia). symmetry. apply nth_repeat_lt. lia.
  - rewrite app_nth2 by (rewrite repeat_length; lia). rewrite repeat_length. f_equal. lia.
Qed.
Lemma inside_length ds idx : inside ds idx -> length idx = length ds.
Proof. intros H. induction H; [reflexivity|]. cbn [length]. congruence. Qed.
Lemma np_max_spec l o : In o l -> Forall (fun a => a <= o) l -> np_max l = Some o.
Proof.
  assert (G : forall l a, Forall (fun b => b <= o) (a :: l) -> (a = o \/ In o l) -> fold_left Z.max l a = o).
  { clear. induction l as [|b l IH]; intros a HF HI; cbn [fold_left].
    - destruct HI as [->|[]]. reflexivity.
    - inversion HF as [|? ? Ha HF']; subst. inversion HF' as [|? ? Hb HF'']; subst. apply IH.
      + constructor; [lia|exact HF''].
      + destruct HI as [->|[->|HI]]; [left; lia|left; lia|right; exact HI]. }
  intros HI HF. destruct l as [|a l]; [destruct HI|]. cbn [np_max]. f_equal. apply G; [exact HF|]. destruct HI; [left; auto|right; auto].
Qed.

(** Add, Sub, Mul, Div, Max, Min of any number of computed tensors: the import
    succeeds and the generated code computes the node. *)
Theorem C61_elementwise : forall (N : num) k (ops : list (bname * (list Z * list (T N)))) raw_out,
  k <> BAvg -> ops <> [] -> one_sample raw_out ->
  Forall (fun o => fst o <> Temp /\ one_sample (fst (snd o)) /\ zlen (snd (snd o)) = prod (run_dims (fst (snd o)))) ops ->
  let ods := run_dims raw_out in
  broadcast_shape (map (fun o => run_dims (fst (snd o))) ops) ods ->
  exists L, create_elementwise false (map (fun o => fst (snd o)) ops) raw_out = Some L /\
    forall out act, out <> Temp ->
    exists y, elementwise (n0 N) (bop N k) (map (fun o => (run_dims (fst (snd o)), snd (snd o))) ops) ods y /\
      layer_ok (broadcast_c N k (List.combine (map fst ops) (map to_shape (ew_shapes L))) None out (to_shape (ew_out L)) act)
        (map (fun o => (fst o, snd (snd o))) ops) out (zlen y) (zlen y) (map act y).
Proof.
  intros N k ops raw_out HK NE HO HF ods (HLEN & _ & HBC).
  destruct (sample_shape raw_out HO) as (OC & OH & OW & POC & POH & POW & EO1 & EO2). fold ods in EO2.
  assert (LOD : length ods = length raw_out) by apply run_dims_length.
  assert (LO4 : (1 <= length ods <= 4)%nat) by (rewrite LOD; destruct HO as (HL & _); unfold zlen in HL; lia).
  rewrite <- LOD in EO2.
  set (sh := fun o : bname * (list Z * list (T N)) => match dims3 (get_shape (fst (snd o))) with Some s => s | None => (0, 0, 0) end).
  assert (SH : forall o, In o ops -> exists c h w, 0 < c /\ 0 < h /\ 0 < w /\ dims3 (get_shape (fst (snd o))) = Some (c, h, w) /\ sh o = (c, h, w) /\
    repeat 1 (4 - length (run_dims (fst (snd o)))) ++ run_dims (fst (snd o)) = [1; c; h; w] /\
    fits_dim c OC /\ fits_dim h OH /\ fits_dim w OW).
  { intros o Ho. rewrite Forall_forall in HF. destruct (HF o Ho) as (_ & S & _).
    destruct (sample_shape _ S) as (c & h & w & Pc & Ph & Pw & E1 & E2). exists c, h, w. rewrite run_dims_length.
    split; [exact Pc|]. split; [exact Ph|]. split; [exact Pw|]. split; [rewrite E1; reflexivity|]. split; [unfold sh; rewrite E1; reflexivity|]. split; [exact E2|].
    assert (HD : In (run_dims (fst (snd o))) (map (fun o => run_dims (fst (snd o))) ops)) by (apply in_map_iff; exists o; split; [reflexivity|exact Ho]).
    specialize (HLEN _ HD).
    assert (G : forall j, (1 <= j <= 3)%nat -> fits_dim (coord j [1; c; h; w]) (coord j [1; OC; OH; OW])).
    { intros j Hj. destruct (Nat.ltb_spec j (4 - length ods)) as [Hlt|Hge].
      - left. rewrite <- E2. unfold coord. rewrite <- (run_dims_length (fst (snd o))). rewrite app_nth1 by (rewrite repeat_length; lia). apply nth_repeat_lt. lia.
      - destruct (HBC (j - (4 - length ods))%nat ltac:(lia)) as (A & _). specialize (A _ HD).
        rewrite aligned_dim_lift in A by lia. rewrite run_dims_length, E2 in A.
        replace (4 - length ods + (j - (4 - length ods)))%nat with j in A by lia.
        replace (coord j [1; OC; OH; OW]) with (coord (j - (4 - length ods)) ods); [exact A|].
        rewrite <- EO2. rewrite <- (coord_app (4 - length ods) _ 1 ods). f_equal. lia. }
    split; [apply (G 1%nat); lia|]. split; [apply (G 2%nat); lia|apply (G 3%nat); lia]. }
  assert (MX : forall j, (1 <= j <= 3)%nat -> exists o, In o ops /\ coord j [1; fst (fst (sh o)); snd (fst (sh o)); snd (sh o)] = coord j [1; OC; OH; OW]).
  { intros j Hj. destruct (Nat.ltb_spec j (4 - length ods)) as [Hlt|Hge].
    - destruct ops as [|o ops']; [congruence|]. exists o. split; [left; reflexivity|].
      destruct (SH o (or_introl eq_refl)) as (c & h & w & _ & _ & _ & _ & -> & E2 & _). cbn [fst snd]. rewrite <- E2, <- EO2. unfold coord.
      pose proof (HLEN _ (or_introl eq_refl)).
      rewrite app_nth1 by (rewrite repeat_length; lia). rewrite app_nth1 by (rewrite repeat_length; lia). rewrite !nth_repeat_lt by lia. reflexivity.
    - destruct (HBC (j - (4 - length ods))%nat ltac:(lia)) as (_ & ds & Hds & A). apply in_map_iff in Hds. destruct Hds as (o & <- & Ho).
      exists o. split; [exact Ho|]. destruct (SH o Ho) as (c & h & w & _ & _ & _ & _ & -> & E2 & _). cbn [fst snd].
      assert (HD : In (run_dims (fst (snd o))) (map (fun o => run_dims (fst (snd o))) ops)) by (apply in_map_iff; exists o; split; [reflexivity|exact Ho]).
      pose proof (HLEN _ HD). rewrite aligned_dim_lift in A by lia. rewrite E2 in A.
      replace (4 - length ods + (j - (4 - length ods)))%nat with j in A by lia. rewrite A.
      rewrite <- EO2. rewrite <- (coord_app (4 - length ods) _ 1 ods). f_equal. lia. }
  assert (AS : all_some (map (fun r => dims3 (get_shape r)) (map (fun o => fst (snd o)) ops)) = Some (map sh ops)).
  { rewrite map_map. clear -SH. induction ops as [|o ops IH]; [reflexivity|]. cbn [map all_some].
    destruct (SH o (or_introl eq_refl)) as (c & h & w & _ & _ & _ & -> & -> & _). rewrite IH; [reflexivity|]. intros o' Ho'. apply SH. right. exact Ho'. }
  assert (M1 : np_max (map (pick3 1) (map sh ops)) = Some OC).
  { rewrite map_map. apply np_max_spec.
    - destruct (MX 1%nat ltac:(lia)) as (o & Ho & E). apply in_map_iff. exists o. split; [|exact Ho]. destruct (sh o) as [[c h] w]. exact E.
    - apply Forall_forall. intros a Ha. apply in_map_iff in Ha. destruct Ha as (o & <- & Ho). destruct (SH o Ho) as (c & h & w & P1 & P2 & P3 & _ & -> & _ & F1 & F2 & F3).
      cbn. unfold fits_dim in *. lia. }
  assert (M2 : np_max (map (pick3 2) (map sh ops)) = Some OH).
  { rewrite map_map. apply np_max_spec.
    - destruct (MX 2%nat ltac:(lia)) as (o & Ho & E). apply in_map_iff. exists o. split; [|exact Ho]. destruct (sh o) as [[c h] w]. exact E.
    - apply Forall_forall. intros a Ha. apply in_map_iff in Ha. destruct Ha as (o & <- & Ho). destruct (SH o Ho) as (c & h & w & P1 & P2 & P3 & _ & -> & _ & F1 & F2 & F3).
      cbn. unfold fits_dim in *. lia. }
  assert (M3 : np_max (map (pick3 3) (map sh ops)) = Some OW).
  { rewrite map_map. apply np_max_spec.
    - destruct (MX 3%nat ltac:(lia)) as (o & Ho & E). apply in_map_iff. exists o. split; [|exact Ho]. destruct (sh o) as [[c h] w]. exact E.
    - apply Forall_forall. intros a Ha. apply in_map_iff in Ha. destruct Ha as (o & <- & Ho). destruct (SH o Ho) as (c & h & w & P1 & P2 & P3 & _ & -> & _ & F1 & F2 & F3).
      cbn. unfold fits_dim in *. lia. }
  exists (mkElementwiseLayer (map sh ops) (OC, OH, OW)). split.
  - unfold create_elementwise. rewrite AS, EO1. cbn [dims3 bind]. rewrite find_size4, Z.eqb_refl, M1, M2, M3 by assumption.
    unfold is_some_eq. rewrite !Z.eqb_refl. cbn [andb]. replace (forallb _ (map sh ops)) with true; [reflexivity|].
    symmetry. apply forallb_forall. intros s Hs. apply in_map_iff in Hs. destruct Hs as (o & <- & Ho).
    destruct (SH o Ho) as (c & h & w & P1 & P2 & P3 & _ & -> & _ & F1 & F2 & F3).
    assert (ONE : forall u v, fits_dim u v -> one_or v u = true).
    { intros u v [->| ->]; unfold one_or; rewrite Z.eqb_refl; [reflexivity|apply orb_true_r]. }
    cbn [pick3 Z.eqb Pos.eqb]. rewrite !ONE by assumption. reflexivity.
  - intros out act Hout. cbn [ew_shapes ew_out].
    set (tens := map (fun o => (fst o, (to_shape (sh o), snd (snd o)))) ops).
    assert (ET : List.combine (map fst ops) (map to_shape (map sh ops)) = map (op_shape N) tens).
    { unfold tens. rewrite !map_map. unfold op_shape. cbn [fst snd]. clear. induction ops as [|o ops IH]; [reflexivity|].
      cbn [map List.combine]. rewrite IH. reflexivity. }
    assert (ES : map (fun o => (fst o, snd (snd o))) ops = map (op_src N) tens).
    { unfold tens. rewrite map_map. reflexivity. }
    assert (FP : Forall positive (map fst (map snd tens))).
    { unfold tens. rewrite !map_map, Forall_map. apply Forall_forall. intros o Ho. cbn [fst snd].
      destruct (SH o Ho) as (c & h & w & P1 & P2 & P3 & _ & -> & _). unfold positive. cbn. lia. }
    assert (FF : Forall (fun s => Broadcast.fits s (mkShape OC OH OW)) (map fst (map snd tens))).
    { unfold tens. rewrite !map_map, Forall_map. apply Forall_forall. intros o Ho. cbn [fst snd].
      destruct (SH o Ho) as (c & h & w & P1 & P2 & P3 & _ & -> & _ & F). exact F. }
    assert (FW : Forall (well_shaped N) (map snd tens)).
    { unfold tens. rewrite !map_map, Forall_map. apply Forall_forall. intros o Ho. cbn [fst snd]. unfold well_shaped. cbn [fst snd].
      rewrite Forall_forall in HF. destruct (HF o Ho) as (_ & _ & ZX). destruct (SH o Ho) as (c & h & w & _ & _ & _ & _ & -> & E2 & _).
      cbn. rewrite ZX, <- (prod_ones (4 - length (run_dims (fst (snd o))))), E2. apply prod4. }
    assert (ISM : forall (g : Z * Z * Z -> Z) (gs : shape -> Z) o3, (forall s, gs (to_shape s) = g s) -> np_max (map g (map sh ops)) = Some o3 ->
              (forall o, In o ops -> g (sh o) <= o3) -> is_max (map gs (map fst (map snd tens))) o3).
    { intros g gs o3 EG EM LE. assert (EL : map gs (map fst (map snd tens)) = map (fun o => g (sh o)) ops).
      { unfold tens. rewrite !map_map. apply map_ext. intros o. cbn [fst snd]. apply EG. }
      rewrite EL. split.
      - rewrite map_map in EM. clear -EM. destruct (map (fun o => g (sh o)) ops) as [|a l]; [discriminate|]. cbn [np_max] in EM. injection EM as <-.
        revert a. induction l as [|b l IH]; intros a; [left; reflexivity|]. cbn [fold_left]. destruct (IH (Z.max a b)) as [E|E].
        + destruct (Z.max_spec a b) as [(_ & M)|(_ & M)]; rewrite M in *; rewrite <- E; [right; left; reflexivity|left; reflexivity].
        + right. right. exact E.
      - apply Forall_forall. intros a Ha. apply in_map_iff in Ha. destruct Ha as (o & <- & Ho). apply LE. exact Ho. }
    assert (LE : forall o, In o ops -> pick3 1 (sh o) <= OC /\ pick3 2 (sh o) <= OH /\ pick3 3 (sh o) <= OW).
    { intros o Ho. destruct (SH o Ho) as (c & h & w & P1 & P2 & P3 & _ & -> & _ & F1 & F2 & F3). cbn. unfold fits_dim in *. lia. }
    pose proof (C27_broadcast N k tens None out (mkShape OC OH OW) act Hout) as G.
    rewrite ET, ES. cbn [to_shape]. cbn [sC sH sW] in G.
    set (y := tab3 OC OH OW (fun f i j => combine N k (map (fun t => bat N t f i j) (map snd tens)) None)).
    assert (ZY : zlen y = OC * OH * OW) by (unfold y; apply zlen_tab3; lia).
    exists y. split.
    + split; [rewrite ZY, <- (prod4 OC OH OW), <- EO2; apply prod_ones|]. intros idx HI.
      pose proof (inside_length _ _ HI) as LI.
      rewrite <- (el_lift (n0 N) (4 - length ods) ods y idx). pose proof (inside_lift (4 - length ods) _ _ HI) as HI4. rewrite EO2 in *.
      apply inside4 in HI4. destruct HI4 as (c & h & w & EI & Hc & Hh & Hw). rewrite EI, el4. unfold y. rewrite at3_tab3 by assumption.
      cbv beta.
      assert (EQ : map (fun t => bat N t c h w) (map snd tens) = map (fun o => el (n0 N) (fst o) (snd o) (aligned (fst o) idx)) (map (fun o => (run_dims (fst (snd o)), snd (snd o))) ops)).
      { unfold tens. rewrite !map_map. apply map_ext_in. intros o Ho. cbn [fst snd].
        destruct (SH o Ho) as (c' & h' & w' & _ & _ & _ & _ & ES' & E2 & _).
        assert (HD : In (run_dims (fst (snd o))) (map (fun o => run_dims (fst (snd o))) ops)) by (apply in_map_iff; exists o; split; [reflexivity|exact Ho]).
        rewrite <- (el_lift (n0 N) (4 - length (run_dims (fst (snd o))))).
        rewrite <- aligned_lift by (rewrite LI; split; [apply HLEN; exact HD|lia]). rewrite LI, EI, E2.
        rewrite ES'. unfold bat, to_shape. cbn [fst snd sC sH sW]. unfold aligned. cbn [length Nat.sub skipn List.combine map fst snd Z.eqb].
        change (1 =? 1) with true. cbv iota. rewrite el4. reflexivity. }
      etransitivity; [apply (f_equal (fun l => combine N k l None)); exact EQ|]. cbv beta. clear EQ. match goal with |- combine N k ?l None = _ => generalize l end. intros [|v vs]; [reflexivity|]. unfold combine. destruct k; try reflexivity. congruence.
    + rewrite ZY. apply G.
      * unfold tens. intros E. apply map_eq_nil in E. congruence.
      * unfold tens. rewrite Forall_map. eapply Forall_impl; [|exact HF]. intros o (Ho & _). exact Ho.
      * rewrite app_nil_r. split; [exact FP|]. split; [exact FF|]. cbn [sC sH sW]. split; [|split].
        -- apply (ISM (pick3 1)); [intros [[? ?] ?]; reflexivity|exact M1|intros o Ho; apply LE; exact Ho].
        -- apply (ISM (pick3 2)); [intros [[? ?] ?]; reflexivity|exact M2|intros o Ho; apply LE; exact Ho].
        -- apply (ISM (pick3 3)); [intros [[? ?] ?]; reflexivity|exact M3|intros o Ho; apply LE; exact Ho].
      * exact FW.
      * discriminate.
Qed.
Print Assumptions C61_elementwise.

(** A row is added to every row of a matrix; a scalar-like tensor to all. *)
Example C61_example :
  broadcast_shape (map run_dims [[0; 2; 3]; [3]; [2; 1]]) (run_dims [0; 2; 3]) /\
  create_elementwise false [[0; 2; 3]; [3]; [2; 1]] [0; 2; 3] = Some (mkElementwiseLayer [(1, 2, 3); (1, 1, 3); (1, 2, 1)] (1, 2, 3)) /\
  result_of (broadcast_c Znum BAdd [(Out 0, mkShape 1 2 3); (Out 1, mkShape 1 1 3); (Out 2, mkShape 1 2 1)] None (Out 3) (mkShape 1 2 3) (fun v => v)
     (mem_of [(Out 0, ramp 6); (Out 1, [10; 20; 30]); (Out 2, [100; 200]); (Out 3, repeat 0 6); (Temp, repeat 0 6)])) (Out 3) 6
  = Some [110; 121; 132; 213; 224; 235].
Proof.
  split; [|split; reflexivity]. split; [|split].
  - intros ds [<-|[<-|[<-|[]]]]; cbn; lia.
  - exists [1; 2; 3]. split; [left; reflexivity|reflexivity].
  - intros q Hq. cbn in Hq. split.
    + intros ds [<-|[<-|[<-|[]]]]; destruct q as [|[|[|q]]]; cbn; try lia; auto.
    + exists [1; 2; 3]. split; [left; reflexivity|]. destruct q as [|[|[|q]]]; cbn; try lia; reflexivity.
Qed.

(** The Mean operator is in the table of supported operators; it is never imported. *)
Theorem C61_mean_refuted : forall raw_ins raw_out, create_elementwise true raw_ins raw_out = None.
Proof. reflexivity. Qed.
Print Assumptions C61_mean_refuted.
