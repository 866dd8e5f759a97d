(** * Concat, Gather and GatherElements nodes (used by C72). *)
From Coq Require Import String.
From Coq Require Import ZArith List Lia Bool Reals Lra QArith.
Import ListNotations.
Open Scope list_scope.
Open Scope Z_scope.
From Verif Require Import CMem Tensor Num RealInst Graph Import LayerKinds LayerKindsProofs OnnxOps OnnxLinear OnnxWindow OnnxMisc.
From Verif Require Activation Broadcast Pooling Pad Movement Conv KerasOps.
From Verif Require Import OnnxSpec OnnxOpsProofs OnnxWindowSpec OnnxLinearSpec OnnxMiscSpec ExportSpec ExportDet OnnxModelSpec OnnxModel.
From Verif Require Import PropertiesActivation PropertiesOnnxOps PropertiesOnnxReduce PropertiesOnnxWindow PropertiesOnnxElementwise PropertiesOnnxLinear PropertiesOnnxPad PropertiesOnnxActivation PropertiesOnnxBypass OnnxModelOps OnnxModelOps2 OnnxModelOps3 OnnxModelOps4.

Lemma operands_slots (shapes : list (Z * Z * Z)) (A : Type) (ins : list (bname * A)) :
  map (fun is : bname * A * (Z * Z * Z) => let '(c, h, w) := snd is in Movement.mkOperand (fst (fst is)) c h w) (List.combine ins shapes) = operands (map fst ins) shapes.
Proof.
  unfold operands. revert shapes. induction ins as [|i ins IH]; intros [|s shapes]; try reflexivity. cbn [List.combine map]. rewrite IH. cbn [fst snd]. reflexivity.
Qed.
Lemma prod_lead n ds : prod (repeat 1 n ++ ds) = prod ds.
Proof. apply prod_ones. Qed.
Lemma axis_valid_pos ds k : valid_axis ds k -> (axis_pos ds k < List.length ds)%nat.
Proof. unfold valid_axis, axis_pos, from_back, zlen. intros H. destruct (Z.ltb_spec k 0); lia. Qed.

Lemma nthZ_inside {A} (d : A) l k : 0 <= k < zlen l -> In (nthZ d l k) l.
Proof. intros H. pose proof (rdl_nthZ d l k H) as E. unfold rdl in E. destruct (k <? 0); [discriminate|]. eapply nth_error_In. exact E. Qed.
Section Ops.
  Variables (m : source) (env : string -> option tensor).
  Hypothesis F : run_facts m env.
  Notation cp := (cp m env F).

  Lemma concat_layer a k is o : Forall (produced m) is -> attr_of "axis" a = Some (AInt k) -> sample_axis m o k -> produced m o ->
    op_holds "Concat" a (map env is) (TFloat (run_dims (raw_shape m o)) (data env o)) ->
    exists rec L, good m env (mkONode "Concat" a is o) rec L.
  Proof.
    intros FP Ak SA Po H. pose proof (cp _ Po) as Co. destruct (SA _ (cp_announced _ _ _ Co)) as (VA & NB).
    assert (FC : Forall (computed m env) is) by (eapply Forall_impl; [|exact FP]; intros nm; apply cp).
    set (ods := run_dims (raw_shape m o)) in *.
    assert (ZL : zlen ods = zlen (raw_shape m o)) by (unfold ods, zlen; rewrite run_dims_length; reflexivity).
    assert (VA' : valid_axis ods k) by (unfold valid_axis in *; rewrite ZL; exact VA).
    assert (AP : axis_pos (raw_shape m o) k = axis_pos ods k) by (unfold axis_pos; rewrite ZL; reflexivity). rewrite AP in NB. rewrite <- ZL in NB.
    set (p := axis_pos ods k) in *.
    assert (X : is <> [] /\ Forall (fun nm => run_dims (raw_shape m nm) = set_at p (coord p (run_dims (raw_shape m nm))) ods) is /\
       coord p ods = fold_right Z.add 0 (map (fun nm => coord p (run_dims (raw_shape m nm))) is) /\
       concatenated 0%R p (map (fun nm => (run_dims (raw_shape m nm), data env nm)) is) ods (data env o)).
    { inversion H; subst; no_reduction; clear H. match goal with G : node_holds _ _ _ _ |- _ => inv_node G end.
      match goal with G : map _ ops = map env is |- _ => symmetry in G; apply (inputs_are m env) in G; [|exact FC]; subst ops end.
      match goal with G : option_map _ _ = Some _ |- _ => unfold int_attr in G; rewrite Ak in G; cbn [option_map] in G; fold p in G; injection G as <- end.
      split; [intros ->; match goal with G : map _ [] <> [] |- _ => apply G; reflexivity end|]. split.
      - match goal with G : Forall _ (map _ is) |- _ => rewrite Forall_map in G; exact G end.
      - split; [|assumption]. match goal with G : coord p ods = fold_right _ _ _ |- _ => rewrite map_map in G; exact G end. }
    destruct X as (NE & FD & HT & HV). clear H.
    set (n := List.length is).
    set (ins := List.combine (slots n) (map (fun nm => (raw_shape m nm, data env nm)) is)).
    assert (LN : n = List.length (map (fun nm => (raw_shape m nm, data env nm)) is)) by (rewrite map_length; reflexivity).
    assert (O1 : map (fun i => fst (snd i)) ins = map (raw_shape m) is) by (unfold ins; rewrite (slots_combine_snd fst) by exact LN; rewrite map_map; reflexivity).
    assert (O3 : map (fun i => (run_dims (fst (snd i)), snd (snd i))) ins = map (fun nm => (run_dims (raw_shape m nm), data env nm)) is).
    { unfold ins. rewrite (slots_combine_snd (fun p => (run_dims (fst p), snd p))) by exact LN. rewrite map_map. reflexivity. }
    assert (O4 : map (fun i => (fst i, snd (snd i))) ins = List.combine (slots n) (map (data env) is)).
    { unfold ins. rewrite (slots_combine_both snd) by exact LN. rewrite map_map. reflexivity. }
    assert (O5 : map fst ins = slots n) by (unfold ins; rewrite LN; apply slots_combine_fst).
    assert (O6 : map (fun i => coord p (run_dims (fst (snd i)))) ins = map (fun nm => coord p (run_dims (raw_shape m nm))) is).
    { unfold ins. rewrite (slots_combine_snd (fun r => coord p (run_dims (fst r)))) by exact LN. rewrite map_map. reflexivity. }
    destruct (C56_concat R 0%R ins (raw_shape m o) k) as (L & EL & OK).
    { intros E. apply (f_equal (@List.length _)) in E. unfold ins in E. rewrite combine_length, slots_length, <- LN, Nat.min_id in E. destruct is; [congruence|discriminate E]. }
    { apply (cp_sample _ _ _ Co). }
    { exact VA'. }
    { exact NB. }
    { apply Forall_forall. intros (b & r & x) Hin. apply slots_combine_in in Hin. destruct Hin as (NT & Hin). apply in_map_iff in Hin. destruct Hin as (nm & E & Hnm). injection E as <- <-. cbn [fst snd].
      rewrite Forall_forall in FC, FD. pose proof (FC nm Hnm) as Cn. split; [exact NT|]. split; [apply (cp_sample _ _ _ Cn)|]. split; [apply FD; exact Hnm|apply (cp_size _ _ _ Cn)]. }
    { fold ods p. rewrite O6. exact HT. }
    rewrite O1 in EL.
    destruct (d3_ok _ (cp_sample _ _ _ Co)) as (DO & PO & VO & GO). fold ods in VO.
    assert (FS : Forall one_sample (map (raw_shape m) is)) by (apply Forall_forall; intros r Hr; apply in_map_iff in Hr; destruct Hr as (nm & <- & Hnm); rewrite Forall_forall in FC; apply (cp_sample _ _ _ (FC nm Hnm))).
    pose proof (d3_all _ FS) as DA.
    assert (NM : exists r0 rs, map (raw_shape m) is = r0 :: rs) by (destruct is; [congruence|eexists _, _; reflexivity]).
    assert (FL : exists K OC OH OW, d3 (raw_shape m o) = (OC, OH, OW) /\ L = mkConcatLayer K OC OH OW (map d3 (map (raw_shape m) is)) /\ 1 <= K <= 3 /\
       Forall (fun s => (K <> 1 -> pick3 1 s = OC) /\ (K <> 2 -> pick3 2 s = OH) /\ (K <> 3 -> pick3 3 s = OW)) (map d3 (map (raw_shape m) is)) /\
       pick3 K (OC, OH, OW) = fold_right Z.add 0 (map (pick3 K) (map d3 (map (raw_shape m) is)))).
    { destruct NM as (r0 & rs & EM). rewrite EM in *. unfold create_concat in EL. set (K := if k <? 0 then _ else _) in EL. rewrite DA in EL. cbn [bind] in EL. rewrite DO in EL. cbn [bind] in EL.
      destruct (d3 (raw_shape m o)) as ((OC, OH), OW) eqn:ED. match type of EL with (if ?b then _ else _) = _ => destruct b eqn:EB; [|discriminate] end. apply some_inj in EL.
      repeat match type of EB with (_ && _) = true => apply andb_true_iff in EB; let E1 := fresh "EB" in destruct EB as (EB & E1) end.
      exists K, OC, OH, OW. split; [reflexivity|]. split; [first [exact EL|symmetry; exact EL]|]. split; [lia|]. split; [|lia].
      match goal with G : forallb _ _ = true |- _ => rewrite forallb_forall in G; apply Forall_forall; intros s Hs; specialize (G s Hs); apply andb_true_iff in G; destruct G as (G & G3); apply andb_true_iff in G; destruct G as (G1 & G2) end.
      repeat split; lia. }
    destruct FL as (K & OC & OH & OW & ED & EL' & KR & FF & KS). rewrite ED in *. cbn [pos3 vol] in *. subst L. cbn [cc_axis cc_OC cc_OH cc_OW cc_shapes] in *.
    exists is, (plain (KConcat Rnum K OC OH OW (map d3 (map (raw_shape m) is)))). apply good_of.
    - unfold import_layer. cbn [n_op n_attrs n_inputs n_output]. destruct is as [|i0 rest]; [congruence|]. cbn [String.eqb Ascii.eqb Bool.eqb]. unfold opt_int. rewrite Ak. cbn [bind]. rewrite EL. reflexivity.
    - intros z Hz. exact Hz.
    - reflexivity.
    - split; [apply lin_supported|]. cbn [lkind plain]. split; [exact KR|]. split; [lia|]. split; [lia|]. split; [lia|]. split; [|split].
      + rewrite !map_map. apply map_ext_in. intros nm Hnm. rewrite Forall_forall in FC. rewrite (cp_size _ _ _ (FC nm Hnm)). destruct (d3_ok _ (cp_sample _ _ _ (FC nm Hnm))) as (_ & _ & -> & _). reflexivity.
      + apply Forall_forall. intros s Hs. pose proof Hs as Hs'. rewrite Forall_forall in FF. specialize (FF s Hs). rewrite map_map in Hs'. apply in_map_iff in Hs'. destruct Hs' as (nm & <- & Hnm).
        rewrite Forall_forall in FC. destruct (d3_ok _ (cp_sample _ _ _ (FC nm Hnm))) as (_ & P3 & _). destruct (d3 (raw_shape m nm)) as ((c, h), w). cbn [pos3] in P3. cbn [pick3] in FF. repeat split; try lia; apply FF.
      + assert (DK : forall s : Z * Z * Z, (let '(c, h, w) := s in Movement.dim c h w K) = pick3 K s) by (intros ((c, h), w); cbn; unfold Movement.dim; destruct (K =? 1) eqn:E1; destruct (K =? 2) eqn:E2; reflexivity).
        pose proof (DK (OC, OH, OW)) as DK0. cbn beta iota in DK0. rewrite DK0, KS. clear -DK. induction (map d3 (map (raw_shape m) is)) as [|s l IH]; [reflexivity|]. cbn [map fold_right]. destruct s as ((c, h), w) eqn:Es. rewrite <- IH. specialize (DK (c, h, w)). cbn beta iota in DK. rewrite DK. reflexivity.
    - cbn [lkind plain out_size n_output]. rewrite (cp_size _ _ _ Co). fold ods. rewrite VO. reflexivity.
    - intros ninf q. destruct (OK (Out 0) (fun v => v) ltac:(discriminate)) as (y & HY & LY). cbn [n_output]. rewrite map_id in LY. fold n.
      rewrite operands_slots in LY. rewrite O4 in LY. rewrite O5 in LY.
      assert (EY : y = data env o).
      { fold ods p in HY. rewrite O3 in HY.
        assert (FD' : Forall (fun o0 : list Z * list R => fst o0 = set_at p (coord p (fst o0)) ods) (map (fun nm => (run_dims (raw_shape m nm), data env nm)) is)) by (rewrite Forall_map; exact FD).
        assert (HT' : coord p ods = fold_right Z.add 0 (map (fun o0 : list Z * list R => coord p (fst o0)) (map (fun nm => (run_dims (raw_shape m nm), data env nm)) is))) by (rewrite map_map; exact HT).
        apply (concat_det p (map (fun nm => (run_dims (raw_shape m nm), data env nm)) is) ods ods (data env o) y); try assumption.
        - destruct is; [congruence|discriminate].
        - apply run_sized. apply (cp_sample _ _ _ Co).
        - apply axis_valid_pos. exact VA'.
        - apply axis_valid_pos. exact VA'. }
      subst y. eexists _, _. exact LY.
  Qed.

  Lemma gather_layer a k i inn o : attr_of "axis" a = Some (AInt k) -> sample_axis m i k -> produced m i -> (exists t, stored m inn t) -> produced m o ->
    op_holds "Gather" a (map env [i; inn]) (TFloat (run_dims (raw_shape m o)) (data env o)) ->
    exists rec L, good m env (mkONode "Gather" a [i; inn] o) rec L.
  Proof.
    intros Ak SA Pi Pn Po H. pose proof (cp _ Pi) as Ci. pose proof (cp _ Po) as Co. destruct (SA _ (cp_announced _ _ _ Ci)) as (VA & NB).
    set (ds := run_dims (raw_shape m i)) in *.
    assert (ZL : zlen ds = zlen (raw_shape m i)) by (unfold ds, zlen; rewrite run_dims_length; reflexivity).
    assert (VA' : valid_axis ds k) by (unfold valid_axis in *; rewrite ZL; exact VA).
    assert (AP : axis_pos (raw_shape m i) k = axis_pos ds k) by (unfold axis_pos; rewrite ZL; reflexivity). rewrite AP in NB. rewrite <- ZL in NB.
    assert (X : exists inds, env inn = Some (TInt [zlen inds] inds) /\ run_dims (raw_shape m o) = set_at (axis_pos ds k) (zlen inds) ds /\
      Forall (fun z => - coord (axis_pos ds k) ds <= z < coord (axis_pos ds k) ds) inds /\ gathered 0%R ds (axis_pos ds k) inds (data env i) (data env o)).
    { inversion H; subst; no_reduction; clear H. match goal with G : node_holds _ _ _ _ |- _ => inv_node G end.
      match goal with G : Some (TFloat _ ?x) = env i |- _ => destruct (computed_is _ _ _ _ _ Ci (eq_sym G)) as (DI & DX) end. fold ds in DI. rewrite DX.
      match goal with G : option_map _ _ = Some _ |- _ => unfold int_attr in G; rewrite Ak in G; cbn [option_map] in G; injection G as <- end. rewrite <- DI in *.
      exists inds. split; [first [reflexivity|symmetry; assumption]|]. split; [congruence|]. split; assumption. }
    destruct X as (inds & EN & DO & FI & HV).
    destruct (C56_gather R 0%R (raw_shape m i) (raw_shape m o) k inds (data env i) (cp_sample _ _ _ Ci) ltac:(apply (cp_sample _ _ _ Co)) VA' NB DO FI (cp_size _ _ _ Ci)) as (L & EL & OK).
    destruct (axis_setup _ k (cp_sample _ _ _ Ci) VA' NB) as (C & HH & W & HC & HH' & HW & E1 & E2 & K & EA & Hk & TK & LP & COO). fold ds in E2, TK, LP, COO.
    destruct (shape_set (raw_shape m i) (raw_shape m o) (axis_pos ds k) (zlen inds) C HH W K ltac:(apply (cp_sample _ _ _ Ci)) ltac:(apply (cp_sample _ _ _ Co)) Hk E2 TK LP DO) as (Hm & LO & GO).
    set (s := coord (Z.to_nat K) [1; C; HH; W]) in *.
    assert (SD : s = Movement.dim C HH W K) by (unfold s; assert (K = 1 \/ K = 2 \/ K = 3) as [-> |[-> | ->]] by lia; reflexivity).
    set (inds' := map (adjust_index s) inds).
    assert (LI : zlen inds' = zlen inds) by apply zlen_map.
    set (OC := if K =? 1 then zlen inds else C) in *. set (OH := if K =? 2 then zlen inds else HH) in *. set (OW := if K =? 3 then zlen inds else W) in *.
    assert (FL : L = mkGatherLayer K C HH W OC OH OW inds').
    { unfold create_gather in EL. cbn [gather_axis] in EL. rewrite EA, E1, GO in EL.
      assert (RS : rdl [1; C; HH; W] K = Some s) by (unfold s; assert (K = 1 \/ K = 2 \/ K = 3) as [-> |[-> | ->]] by lia; reflexivity).
      rewrite RS in EL. cbn [bind dims3] in EL. match type of EL with (if ?b then _ else _) = _ => destruct b; [|discriminate] end. apply some_inj in EL. first [exact EL|symmetry; exact EL]. }
    subst L. cbn [g_axis g_C g_H g_W g_OC g_OH g_OW g_inds] in *.
    assert (ZX : zlen (data env i) = C * HH * W) by (rewrite (cp_size _ _ _ Ci); fold ds; rewrite <- (prod_lead (4 - List.length (raw_shape m i))), E2; apply prod4).
    exists [i], (plain (KGather Rnum K C HH W inds')). apply good_of.
    - unfold import_layer. cbn [n_op n_attrs n_inputs n_output]. cbn [String.eqb Ascii.eqb Bool.eqb]. unfold opt_int. rewrite Ak. cbn [bind]. rewrite (integers_stored _ _ _ _ _ F Pn EN). cbn [bind fst snd]. rewrite EL. cbn [bind g_axis g_C g_H g_W g_OC g_OH g_OW g_inds]. rewrite LI. fold OC OH OW. rewrite !Z.eqb_refl. reflexivity.
    - intros z Hz. destruct Hz as [<-|[]]. left. reflexivity.
    - reflexivity.
    - split; [apply lin_supported|]. cbn [lkind plain map]. split; [f_equal; exact ZX|]. split; [exact Hk|]. repeat (split; [lia|]). intros j Hj. rewrite LI in Hj.
      unfold inds'. rewrite nthZ_map with (da := 0) by exact Hj. rewrite <- SD. apply adjust_range. rewrite Forall_forall in FI. rewrite <- COO. apply FI. apply nthZ_inside. exact Hj.
    - cbn [lkind plain out_size n_output]. rewrite LI. fold OC OH OW. rewrite (cp_size _ _ _ Co). rewrite <- (prod_lead (4 - List.length (raw_shape m o))).
      destruct (sample_shape _ (cp_sample _ _ _ Co)) as (C' & H' & W' & _ & _ & _ & GE & PE). rewrite PE. rewrite GE in GO. injection GO as -> -> ->. symmetry. apply prod4.
    - intros ninf q. destruct (OK (Out 1) (Out 0) (fun v => v) ltac:(discriminate) ltac:(discriminate)) as (y & HY & LY). cbn [n_output map List.length]. change (slots 1) with [Out 1]. rewrite map_id in LY.
      assert (EY : data env o = y).
      { apply (el_ext 0%R (set_at (axis_pos ds k) (zlen inds) ds)).
        - rewrite <- DO. apply run_sized. apply (cp_sample _ _ _ Co).
        - apply HV.
        - apply HY.
        - intros idx HI. rewrite (proj2 HV idx HI). symmetry. exact (proj2 HY idx HI). }
      rewrite EY. eexists _, _. cbn [gen_code lkind plain lact]. rewrite LI. exact LY.
  Qed.

  Lemma gather_elements_layer a k i inn o : attr_of "axis" a = Some (AInt k) -> sample_axis m i k -> produced m i -> (exists t, stored m inn t) ->
    (forall ds ids q, announced m i ds -> stored m inn (TInt ids q) -> ids = set_at (axis_pos ds k) (coord (axis_pos ds k) ids) (run_dims ds)) -> produced m o ->
    op_holds "GatherElements" a (map env [i; inn]) (TFloat (run_dims (raw_shape m o)) (data env o)) ->
    exists rec L, good m env (mkONode "GatherElements" a [i; inn] o) rec L.
  Proof.
    intros Ak SA Pi Pn HQ Po H. pose proof (cp _ Pi) as Ci. pose proof (cp _ Po) as Co. destruct (SA _ (cp_announced _ _ _ Ci)) as (VA & NB).
    set (ds := run_dims (raw_shape m i)) in *.
    assert (ZL : zlen ds = zlen (raw_shape m i)) by (unfold ds, zlen; rewrite run_dims_length; reflexivity).
    assert (VA' : valid_axis ds k) by (unfold valid_axis in *; rewrite ZL; exact VA).
    assert (AP : axis_pos (raw_shape m i) k = axis_pos ds k) by (unfold axis_pos; rewrite ZL; reflexivity). rewrite AP in NB. rewrite <- ZL in NB.
    assert (X : exists inds, env inn = Some (TInt (run_dims (raw_shape m o)) inds) /\
      Forall (fun z => - coord (axis_pos ds k) ds <= z < coord (axis_pos ds k) ds) inds /\ gathered_elements 0%R ds (run_dims (raw_shape m o)) (axis_pos ds k) inds (data env i) (data env o)).
    { inversion H; subst; no_reduction; clear H. match goal with G : node_holds _ _ _ _ |- _ => inv_node G end.
      match goal with G : Some (TFloat _ ?x) = env i |- _ => destruct (computed_is _ _ _ _ _ Ci (eq_sym G)) as (DI & DX) end. fold ds in DI. rewrite DX.
      match goal with G : option_map _ _ = Some _ |- _ => unfold int_attr in G; rewrite Ak in G; cbn [option_map] in G; injection G as <- end. rewrite <- DI in *.
      exists inds. split; [first [reflexivity|symmetry; assumption]|]. split; assumption. }
    destruct X as (inds & EN & FI & HV). set (ids := run_dims (raw_shape m o)) in *.
    assert (EI : ids = set_at (axis_pos ds k) (coord (axis_pos ds k) ids) ds).
    { destruct Pn as (t & Pn). pose proof (rf_stored _ _ F _ _ Pn) as (_ & E'). rewrite E' in EN. injection EN as ->. pose proof (HQ _ _ _ (cp_announced _ _ _ Ci) Pn) as G. rewrite AP in G. exact G. }
    assert (ZI : zlen inds = prod ids) by exact (rf_sized _ _ F _ _ EN).
    destruct (C56_gather_elements R 0%R (raw_shape m i) (raw_shape m o) k ids inds (data env i) (cp_sample _ _ _ Ci) ltac:(apply (cp_sample _ _ _ Co)) VA' NB EI eq_refl ZI FI (cp_size _ _ _ Ci)) as (L & EL & OK).
    destruct (axis_setup _ k (cp_sample _ _ _ Ci) VA' NB) as (C & HH & W & HC & HH' & HW & E1 & E2 & K & EA & Hk & TK & LP & COO). fold ds in E2, TK, LP, COO.
    set (mm := coord (axis_pos ds k) ids) in *.
    destruct (shape_set (raw_shape m i) (raw_shape m o) (axis_pos ds k) mm C HH W K ltac:(apply (cp_sample _ _ _ Ci)) ltac:(apply (cp_sample _ _ _ Co)) Hk E2 TK LP EI) as (Hm & LO & GO).
    set (s := coord (Z.to_nat K) [1; C; HH; W]) in *.
    assert (SD : s = Movement.dim C HH W K) by (unfold s; assert (K = 1 \/ K = 2 \/ K = 3) as [-> |[-> | ->]] by lia; reflexivity).
    set (inds' := map (adjust_index s) inds).
    assert (LI : zlen inds' = zlen inds) by apply zlen_map.
    set (OC := if K =? 1 then mm else C) in *. set (OH := if K =? 2 then mm else HH) in *. set (OW := if K =? 3 then mm else W) in *.
    assert (ZO : prod ids = OC * OH * OW).
    { unfold ids. rewrite <- (prod_lead (4 - List.length (raw_shape m o))). destruct (sample_shape _ (cp_sample _ _ _ Co)) as (C' & H' & W' & _ & _ & _ & GE & PE). rewrite PE. rewrite GE in GO. injection GO as -> -> ->. apply prod4. }
    assert (FL : L = mkGatherLayer K C HH W OC OH OW inds').
    { unfold create_gather_elements in EL. cbn [gather_axis] in EL. rewrite EA, E1, GO in EL.
      assert (RS : rdl [1; C; HH; W] K = Some s) by (unfold s; assert (K = 1 \/ K = 2 \/ K = 3) as [-> |[-> | ->]] by lia; reflexivity).
      rewrite RS in EL. cbn [bind dims3] in EL. match type of EL with (if ?b then _ else _) = _ => destruct b; [|discriminate] end. apply some_inj in EL. first [exact EL|symmetry; exact EL]. }
    subst L. cbn [g_axis g_C g_H g_W g_OC g_OH g_OW g_inds] in *.
    assert (ZX : zlen (data env i) = C * HH * W) by (rewrite (cp_size _ _ _ Ci); fold ds; rewrite <- (prod_lead (4 - List.length (raw_shape m i))), E2; apply prod4).
    exists [i], (plain (KGatherElements Rnum K C HH W OC OH OW inds')). apply good_of.
    - unfold import_layer. cbn [n_op n_attrs n_inputs n_output]. cbn [String.eqb Ascii.eqb Bool.eqb]. unfold opt_int. rewrite Ak. cbn [bind]. rewrite (integers_stored _ _ _ _ _ F Pn EN). cbn [bind fst snd]. rewrite EL. reflexivity.
    - intros z Hz. destruct Hz as [<-|[]]. left. reflexivity.
    - reflexivity.
    - split; [apply lin_supported|]. cbn [lkind plain map]. split; [f_equal; exact ZX|]. split; [exact Hk|]. split; [unfold OC; destruct (K =? 1); lia|]. split; [unfold OH; destruct (K =? 2); lia|]. split; [unfold OW; destruct (K =? 3); lia|].
      split; [lia|]. split; [unfold OC; destruct (Z.eqb_spec K 1); congruence|]. split; [unfold OH; destruct (Z.eqb_spec K 2); congruence|]. split; [unfold OW; destruct (Z.eqb_spec K 3); congruence|]. intros j Hj. rewrite LI in Hj.
      unfold inds'. rewrite nthZ_map with (da := 0) by exact Hj. rewrite <- SD. apply adjust_range. rewrite Forall_forall in FI. rewrite <- COO. apply FI. apply nthZ_inside. exact Hj.
    - cbn [lkind plain out_size n_output]. rewrite (cp_size _ _ _ Co). fold ids. lia.
    - intros ninf q. destruct (OK (Out 1) (Out 0) (fun v => v) ltac:(discriminate) ltac:(discriminate)) as (y & HY & LY). cbn [n_output map List.length]. change (slots 1) with [Out 1]. rewrite map_id in LY.
      assert (EY : data env o = y).
      { apply (el_ext 0%R ids).
        - apply run_sized. apply (cp_sample _ _ _ Co).
        - apply HV.
        - apply HY.
        - intros idx HI. rewrite (proj2 HV idx HI). symmetry. exact (proj2 HY idx HI). }
      rewrite EY. eexists _, _. exact LY.
  Qed.
End Ops.
