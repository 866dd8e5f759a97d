(** * Tile and Reduce nodes of an ONNX model (used by C72). *)
From Coq Require Import String.
From Coq Require Import ZArith List Lia Bool Reals Lra QArith.
Import ListNotations.
Open Scope list_scope.
Open Scope Z_scope.
From Verif Require Import CMem Tensor Num RealInst Graph Import LayerKinds LayerKindsProofs Reduce ReduceProofs OnnxOps OnnxLinear OnnxWindow OnnxMisc.
From Verif Require Activation Broadcast Pooling Pad Movement Conv KerasOps.
From Verif Require Import OnnxSpec OnnxOpsProofs OnnxWindowSpec OnnxLinearSpec OnnxMiscSpec ExportSpec ExportDet OnnxModelSpec OnnxModel.
From Verif Require Import PropertiesActivation PropertiesOnnxOps PropertiesOnnxReduce OnnxModelOps OnnxModelOps2 OnnxModelOps3.

Lemma one_character i : String.length i = 1%nat -> chars i = [i].
Proof. destruct i as [|c [|c' r]]; try discriminate. reflexivity. Qed.
Lemma reductions op k : reduction_of op = Some k -> In op ["ReduceSum"; "ReduceMean"; "ReduceProd"; "ReduceMax"; "ReduceMin"]%string.
Proof.
  unfold reduction_of. repeat match goal with |- (if String.eqb op ?s then _ else _) = _ -> _ => destruct (String.eqb_spec op s) as [->|?]; [cbn [In]; tauto|] end. discriminate.
Qed.
Lemma prod_dropped P ds p : prod (dropped_dims p P ds) = prod (reduced_dims p P ds).
Proof. revert p. induction ds as [|n ds IH]; intros p; [reflexivity|]. cbn [dropped_dims reduced_dims prod]. destruct (existsb (Nat.eqb p) P); cbn [Datatypes.app prod]; rewrite IH; lia. Qed.
Lemma prod_reduced_shape kd P ds : prod (reduced_shape kd P ds) = prod (reduced_dims 0 P ds).
Proof. unfold reduced_shape. destruct (kd =? 0); [apply prod_dropped|reflexivity]. Qed.

Lemma sized_reduced P ds p : sized ds -> sized (reduced_dims p P ds).
Proof. intros H. revert p. induction H as [|n ds Hn H IH]; intros p; cbn [reduced_dims]; [constructor|]. constructor; [destruct (existsb (Nat.eqb p) P); lia|apply IH]. Qed.
Section Ops.
  Variables (m : source) (env : string -> option tensor).
  Hypothesis F : run_facts m env.
  Notation cp := (cp m env F).

  Lemma tile_layer a i rn ds reps o : String.length i = 1%nat -> produced m i -> stored m rn (TInt ds reps) ->
    Forall (fun r => 0 < r) reps -> (zlen reps = 4 -> coord 0 reps = 1) -> produced m o ->
    op_holds "Tile" a (map env [i; rn]) (TFloat (run_dims (raw_shape m o)) (data env o)) ->
    exists L, good m env (mkONode "Tile" a [i; rn] o) [i] L.
  Proof.
    intros I1 Pi SR PR R4 Po H. pose proof (cp _ Pi) as Ci. pose proof (cp _ Po) as Co.
    destruct (rf_stored _ _ F _ _ SR) as (ER & EV).
    assert (X : List.length reps = List.length (run_dims (raw_shape m i)) /\ tiled 0%R (run_dims (raw_shape m i)) reps (data env i) (data env o) /\
                run_dims (raw_shape m o) = map2 Z.mul reps (run_dims (raw_shape m i))).
    { cbn [map] in H. rewrite EV in H. inversion H; subst; no_reduction; clear H. match goal with G : node_holds _ _ _ _ |- _ => inv_node G end.
      match goal with G : Some (TFloat _ ?x) = env i |- _ => destruct (computed_is _ _ _ _ _ Ci (eq_sym G)) as (DI & DX) end. rewrite DI, DX. split; [assumption|]. split; [assumption|]. congruence. }
    destruct X as (LR & HV & DO). assert (ZR : zlen reps = zlen (run_dims (raw_shape m i))) by (unfold zlen; rewrite LR; reflexivity).
    destruct (C56_tile R 0%R (raw_shape m i) (raw_shape m o) reps (data env i) (cp_sample _ _ _ Ci) (proj1 (proj2 (cp_sample _ _ _ Co))) ZR PR ltac:(rewrite <- ZR; exact R4) DO (cp_size _ _ _ Ci)) as (L & EL & OK).
    destruct (extended_dims _ (cp_sample _ _ _ Ci)) as (C & HH & W & PC & PH & PW & ES & EP).
    assert (FL : t_C L = C /\ t_H L = HH /\ t_W L = W /\ 0 < t_rc L /\ 0 < t_rh L /\ 0 < t_rw L /\ prod (run_dims (raw_shape m o)) = (t_rc L * C) * (t_rh L * HH) * (t_rw L * W)).
    { unfold create_tile in EL. rewrite ES in EL. cbn [bind dims3] in EL. rewrite find_size_prod in EL by (apply (cp_sample _ _ _ Co)).
      set (rr := repeat 1 (4 - Datatypes.length reps) ++ reps) in *. destruct (dims3 rr) as [((rc & rh) & rw)|] eqn:ED; [|discriminate]. cbn [bind] in EL.
      match type of EL with (if (?b1 && ?b2 && ?b3) then _ else _) = _ => destruct b1 eqn:B1; [|discriminate]; destruct b2 eqn:B2; [|discriminate]; destruct b3 eqn:B3; [|discriminate] end. cbn [andb] in EL. apply some_inj in EL. subst L. cbn [t_C t_H t_W t_rc t_rh t_rw].
      rewrite forallb_forall in B3. assert (B4 : forall z, In z rr -> 0 < z) by (intros z Hz; apply Z.ltb_lt, B3; exact Hz). clearbody rr.
      destruct rr as [|r0 [|r1 [|r2 [|r3 [|? ?]]]]]; try discriminate ED; try discriminate B2. cbn in ED. injection ED as <- <- <-. 
      repeat (split; [first [reflexivity | apply B4; cbn; tauto]|]). apply Z.eqb_eq. exact B1. }
    destruct FL as (F1 & F2 & F3 & F4 & F5 & F6 & F7).
    exists (plain (KTile Rnum (t_C L) (t_H L) (t_W L) (t_rc L) (t_rh L) (t_rw L))). apply good_of; [|intros z [<-|[]]; left; reflexivity|reflexivity| | |].
    - unfold import_layer. cbn [n_op n_attrs n_inputs n_output]. cbn [String.eqb Ascii.eqb Bool.eqb]. unfold integers. rewrite ER. cbn [bind snd]. rewrite EL. cbn [bind]. rewrite (one_character i I1). reflexivity.
    - split; [apply lin_supported|]. cbn [lkind plain map]. rewrite F1, F2, F3. split; [f_equal; rewrite (cp_size _ _ _ Ci); exact EP|]. repeat (split; [lia|]). lia.
    - cbn [lkind plain out_size n_output]. rewrite (cp_size _ _ _ Co), F1, F2, F3. symmetry. exact F7.
    - intros ninf q. destruct (OK (Out 1) (Out 0) (fun v => v) ltac:(discriminate) ltac:(discriminate)) as (y & HY & LY). cbn [n_output map List.length]. change (slots 1) with [Out 1]. rewrite map_id in LY.
      assert (EY : data env o = y).
      { destruct HV as (Z1 & HV). destruct HY as (Z2 & HY). eapply (el_ext 0%R); [|exact Z1|exact Z2|intros idx HI; exact (eq_trans (HV idx HI) (eq_sym (HY idx HI)))]. rewrite <- DO. apply run_sized. apply (cp_sample _ _ _ Co). }
      rewrite EY. eexists _, _. exact LY.
  Qed.

  Lemma reduce_holds op a k ins ds rd out : reduction_of op = Some k -> op_holds op a ins (TFloat rd out) ->
    forall x rest axes, ins = Some (TFloat ds x) :: rest -> (rest = [] /\ axes = [] \/ exists ads, rest = [Some (TInt ads axes)]) ->
    (axes = [] -> int_attr "noop_with_empty_axes" (Some 0) a = Some 0) ->
    Forall (valid_axis ds) axes /\ reduced Rnum k ds (reduced_axes ds axes) x out /\ exists kd, rd = reduced_shape kd (reduced_axes ds axes) ds.
  Proof.
    intros K H x rest axes EI HA HNO. pose proof (reductions _ _ K) as IO. cbn [In] in IO.
    inversion H; subst; try (exfalso; repeat (destruct IO as [IO|IO]; [solve [subst; discriminate]|]); exact IO).
    - clear H. destruct HA as [(-> & ->)|(ads & ->)].
      + exfalso. repeat (destruct IO as [<-|IO]; [match goal with G : node_holds _ _ _ _ |- _ => inv_node G end|]). exact IO.
      + match goal with G : node_holds _ _ _ _ |- _ => rename G into HN end. inversion HN; subst; try (exfalso; repeat (destruct IO as [IO|IO]; [solve [subst; discriminate]|]); exact IO).
        * match goal with G : reduction_of op = Some ?k0 |- _ => tryif constr_eq k0 k then fail else (rewrite K in G; injection G as <-) end. split; [assumption|]. split; [assumption|]. eexists. reflexivity.
        * exfalso. match goal with G : int_attr _ _ _ = Some _ |- _ => rewrite (HNO eq_refl) in G; injection G as <- end. congruence.
    - rewrite K in H2. injection H2 as <-. injection H6 as E1 E2 E3. subst ds0 x0. destruct HA as [(_ & ->)|(ads & E)]; [|rewrite E in E3; discriminate E3].
      split; [constructor|]. split; [assumption|]. eexists. reflexivity.
  Qed.

  Lemma reduce_layer op a k i rest axes nv o : reduction_of op = Some k -> reductions_since op <= s_opset m -> String.length i = 1%nat -> produced m i ->
    (rest = [] /\ axes = [] \/ exists an ads, rest = [an] /\ stored m an (TInt ads axes)) ->
    int_attr "noop_with_empty_axes" (Some 0) a = Some nv -> (axes = [] -> nv = 0) ->
    (forall ds, announced m i ds -> Forall (valid_axis ds) axes /\ (zlen ds = 4 -> ~ In 0%nat (map (axis_pos ds) axes)) /\
       (axes <> [] -> k = RMax \/ k = RMin -> (exists p, forall q, In q axes -> axis_pos ds q = p) \/
          (3 <= zlen ds /\ forall q, (List.length ds - 3 <= q < List.length ds)%nat -> In q (map (axis_pos ds) axes)))) -> produced m o ->
    op_holds op a (map env (i :: rest)) (TFloat (run_dims (raw_shape m o)) (data env o)) ->
    exists L, good m env (mkONode op a (i :: rest) o) [i] L.
  Proof.
    intros K OS I1 Pi HR EA HN0 HA Po H. destruct (int_read _ _ _ _ EA) as (noop & EN & _).
    assert (HN : axes = [] -> int_attr "noop_with_empty_axes" (Some 0) a = Some 0) by (intros E; rewrite EA, (HN0 E); reflexivity). clear EA HN0. pose proof (cp _ Pi) as Ci. pose proof (cp _ Po) as Co. specialize (HA _ (cp_announced _ _ _ Ci)).
    set (raw := raw_shape m i) in *. set (ds := run_dims raw) in *.
    assert (LD : zlen ds = zlen raw) by (unfold zlen, ds; rewrite run_dims_length; reflexivity). assert (LN : List.length ds = List.length raw) by (unfold ds; apply run_dims_length).
    assert (AP : forall q, axis_pos raw q = axis_pos ds q) by (intros q; unfold axis_pos; rewrite LD; reflexivity).
    assert (MP : map (axis_pos raw) axes = map (axis_pos ds) axes) by (apply map_ext; exact AP).
    destruct HA as (_ & HB & HC). rewrite MP in *. rewrite <- LD, <- LN in *.
    assert (HI : map env (i :: rest) = Some (TFloat ds (data env i)) :: map env rest /\ (map env rest = [] /\ axes = [] \/ exists ads, map env rest = [Some (TInt ads axes)])).
    { cbn [map]. rewrite (cp_env _ _ _ Ci) at 1. split; [reflexivity|]. destruct HR as [(-> & ->)|(an & ads & -> & SA)]; [left; split; reflexivity|right]. exists ads. cbn [map]. rewrite (proj2 (rf_stored _ _ F _ _ SA)). reflexivity. }
    destruct HI as (HI1 & HI2). destruct (reduce_holds op a k _ ds _ _ K H _ _ axes HI1 HI2 HN) as (VA & HV & kd & DO).
    assert (NF : axes = [] -> nonzero noop = false).
    { intros E. specialize (HN E). revert HN EN. unfold int_attr, opt_int. destruct (attr_of "noop_with_empty_axes" a) as [[]|]; intros E1 E2; try discriminate; injection E2 as <-; cbn; try reflexivity. injection E1 as ->. reflexivity. }
    destruct (reduce_imported Rnum k (reductions_since op) (s_opset m) raw (raw_shape m o) axes (nonzero noop) (data env i) (cp_sample _ _ _ Ci) (proj1 (proj2 (cp_sample _ _ _ Co))) OS VA HB NF) as (L & EL & RS & EL0 & OK).
    { fold ds. intros NE KK. assert (EQ : reduced_axes ds axes = map (axis_pos ds) axes) by (unfold reduced_axes; destruct axes; [congruence|reflexivity]). rewrite EQ. 
      destruct (HC NE KK) as [(p & Hp)|R3]; [left; exists p|right; exact R3]. intros q Hq. apply in_map_iff in Hq. destruct Hq as (z & <- & Hz). rewrite <- AP. apply Hp. exact Hz. }
    { rewrite DO. apply prod_reduced_shape. }
    { exact (cp_size _ _ _ Ci). }
    destruct (extended_dims _ (cp_sample _ _ _ Ci)) as (C & HH & W & PC & PH & PW & ES & EP).
    fold raw in ES, EP. fold ds in EP.
    exists (plain (KReduce Rnum k (r_C L) (r_H L) (r_W L) (r_axes L) (r_noop L))).
    assert (FL : r_C L = C /\ r_H L = HH /\ r_W L = W /\ r_noop L = nonzero noop /\ r_axes L = map (import_axis (get_shape raw) raw) axes /\
      prod (run_dims (raw_shape m o)) = red_dim 1 C (r_axes L) (r_noop L) * red_dim 2 HH (r_axes L) (r_noop L) * red_dim 3 W (r_axes L) (r_noop L)).
    { unfold create_reduce in EL. destruct (s_opset m <? reductions_since op); [discriminate|]. fold raw in EL. rewrite ES in EL |- *. cbn [bind dims3] in EL. rewrite find_size_prod in EL by (apply (cp_sample _ _ _ Co)).
      match type of EL with (if (?b1 && ?b2) then _ else _) = _ => destruct b1 eqn:B1; [|discriminate]; destruct b2 eqn:B2; [|discriminate] end. cbn [andb] in EL. apply some_inj in EL. subst L. cbn [r_C r_H r_W r_axes r_noop].
      repeat (split; [reflexivity|]). apply Z.eqb_eq in B1. exact B1. }
    destruct FL as (F1 & F2 & F3 & F4 & F5 & F6).
    apply good_of; [|intros z [<-|[]]; left; reflexivity|reflexivity| | |].
    - unfold import_layer. cbn [n_op n_attrs n_inputs n_output]. fold raw.
      assert (EA : (match rest with [an] => I <- integers m an ;; Some (Some (snd I)) | _ => Some None end) = Some (match rest with [] => None | _ => Some axes end)).
      { destruct HR as [(-> & _)|(an & ads & -> & SA)]; [reflexivity|]. unfold integers. rewrite (proj1 (rf_stored _ _ F _ _ SA)). reflexivity. }
      assert (EC : create_reduce (reductions_since op) (s_opset m) raw (raw_shape m o) (match rest with [] => None | _ => Some axes end) (nonzero noop) = Some L).
      { destruct HR as [(-> & HE)|(an & ads & -> & SA)]; [exact (EL0 HE)|exact EL]. }
      pose proof (reductions _ _ K) as IO. cbn [In] in IO.
      repeat (destruct IO as [<-|IO]; [cbn [String.eqb Ascii.eqb Bool.eqb]; rewrite K, EN; cbn [bind]; rewrite EA; cbn [bind]; unfold reductions_since in EC; cbn [String.eqb Ascii.eqb Bool.eqb] in EC; rewrite EC; cbn [bind]; rewrite (one_character i I1); reflexivity|]). destruct IO.
    - split; [apply lin_supported|]. cbn [lkind plain map]. rewrite F1, F2, F3. split; [f_equal; rewrite (cp_size _ _ _ Ci); exact EP|]. repeat (split; [lia|]). exact RS.
    - cbn [lkind plain out_size n_output]. rewrite (cp_size _ _ _ Co), F1, F2, F3. symmetry. exact F6.
    - intros ninf q. destruct (OK (Out 1) (Out 0) (fun v => v) ltac:(discriminate) ltac:(discriminate)) as (y & HY & LY). cbn [n_output map List.length]. change (slots 1) with [Out 1]. rewrite map_id in LY.
      assert (EY : data env o = y).
      { destruct HV as (Z1 & HV). destruct HY as (Z2 & HY). eapply (el_ext 0%R); [|exact Z1|exact Z2|intros idx HI; exact (eq_trans (HV idx HI) (eq_sym (HY idx HI)))]. apply sized_reduced. apply run_sized. apply (cp_sample _ _ _ Ci). }
      rewrite EY. eexists _, _. exact LY.
  Qed.
End Ops.
