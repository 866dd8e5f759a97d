(** * Gemm, MatMul and Pad nodes, and the nodes that only change the shape (used by C72). *)
From Coq Require Import String.
From Coq Require Import ZArith List Lia Bool Reals Lra QArith.
Import ListNotations.
Open Scope list_scope.
Open Scope Z_scope.
From Verif Require Import CMem Tensor Num RealInst Graph Import LayerKinds LayerKindsProofs OnnxOps OnnxLinear OnnxWindow OnnxMisc.
From Verif Require Activation Broadcast Pooling Pad Movement Conv KerasOps Linear.
From Verif Require Import OnnxSpec OnnxOpsProofs OnnxWindowSpec OnnxLinearSpec OnnxMiscSpec ExportSpec ExportDet OnnxModelSpec OnnxModel.
From Verif Require Import PropertiesActivation PropertiesPad PropertiesOnnxOps PropertiesOnnxReduce PropertiesOnnxWindow PropertiesOnnxElementwise PropertiesOnnxLinear PropertiesOnnxPad PropertiesOnnxActivation PropertiesOnnxBypass OnnxModelOps OnnxModelOps2 OnnxModelOps3 OnnxModelOps4 OnnxModelOps5.

Lemma neq_R (b : R) : b <> 1%R -> Broadcast.neq Rnum b 1%R = true.
Proof.
  intros H. unfold Broadcast.neq. cbn [nlt Rnum]. unfold Rltb. destruct (Rlt_dec b 1); [reflexivity|]. destruct (Rlt_dec 1 b); [reflexivity|]. exfalso. apply H. lra.
Qed.
Lemma gemm_det tA tB al be M Nn K cd x w c (y y' : list R) : sized [M; Nn] -> gemm_value Rnum tA tB al be M Nn K cd x w c y -> gemm_value Rnum tA tB al be M Nn K cd x w c y' -> y = y'.
Proof.
  intros S (LA & EA) (LB & EB). assert (P2 : prod [M; Nn] = M * Nn) by (cbn [prod]; ring).
  eapply (el_ext 0%R); [exact S|rewrite P2; exact LA|rewrite P2; exact LB|]. intros idx HI.
  inversion HI as [|? i ? ? Hi HI1]; subst. inversion HI1 as [|? j ? ? Hj HI2]; subst. inversion HI2; subst. exact (eq_trans (EA i j Hi Hj) (eq_sym (EB i j Hi Hj))).
Qed.
Lemma inside_app_inv ds1 ds2 idx : inside (ds1 ++ ds2) idx -> exists i1 i2, idx = i1 ++ i2 /\ inside ds1 i1 /\ inside ds2 i2.
Proof.
  revert idx. induction ds1 as [|d ds1 IH]; intros idx H; [exists [], idx; split; [reflexivity|split; [constructor|exact H]]|].
  cbn [Datatypes.app] in H. inversion H as [|? j ? idx' H1 H2]; subst. destruct (IH idx' H2) as (i1 & i2 & -> & A & B). exists (j :: i1), i2. split; [reflexivity|]. split; [constructor; assumption|exact B].
Qed.
Lemma multiplied_det sa sb stack M K Nn x w (y y' : list R) : sized (stack ++ [M; Nn]) -> multiplied Rnum sa sb stack M K Nn x w y -> multiplied Rnum sa sb stack M K Nn x w y' -> y = y'.
Proof.
  intros S (LA & EA) (LB & EB). assert (P : prod (stack ++ [M; Nn]) = prod stack * M * Nn) by (rewrite prod_app; cbn [prod]; ring).
  eapply (el_ext 0%R); [exact S|rewrite P; exact LA|rewrite P; exact LB|]. intros idx HI.
  destruct (inside_app_inv _ _ _ HI) as (q & r & -> & IQ & IR).
  inversion IR as [|? i ? ? Hi HI1]; subst. inversion HI1 as [|? j ? ? Hj HI2]; subst. inversion HI2; subst. exact (eq_trans (EA q i j IQ Hi Hj) (eq_sym (EB q i j IQ Hi Hj))).
Qed.
Lemma padded_det mode v ds before after x (y y' : list R) : sized (padded_dims ds before after) -> padded 0%R mode v ds before after x y -> padded 0%R mode v ds before after x y' -> y = y'.
Proof. intros S (LA & EA) (LB & EB). eapply (el_ext 0%R); [exact S|exact LA|exact LB|]. intros idx HI. exact (eq_trans (EA idx HI) (eq_sym (EB idx HI))). Qed.
Lemma lead_stack s M K : (List.length (s ++ [M; K]) <= 4)%nat -> (List.length (s ++ [M; K]) = 4%nat -> coord 0 (s ++ [M; K]) = 1) -> lead (s ++ [M; K]) = [1; prod s; M; K].
Proof.
  intros L B. rewrite app_length in *. cbn [List.length] in *. destruct s as [|s0 [|s1 [|s2 s]]].
  - reflexivity.
  - unfold lead. cbn. repeat f_equal. ring.
  - specialize (B eq_refl). cbn in B. subst s0. unfold lead. cbn [List.length Nat.sub repeat Datatypes.app prod]. repeat f_equal. ring.
  - cbn [List.length] in L. lia.
Qed.
Lemma lead_left ds : lead (as_left ds) = lead ds. Proof. destruct ds as [|a [|b ds]]; reflexivity. Qed.
Lemma stack_of s M K : stack_dims (s ++ [M; K]) = s.
Proof. unfold stack_dims. change [M; K] with ([M] ++ [K]). rewrite app_assoc, removelast_last, removelast_last. reflexivity. Qed.
Lemma as_left_facts ds : ds <> [] -> (List.length ds <= 4)%nat -> (List.length ds = 4%nat -> coord 0 ds = 1) ->
  (List.length (as_left ds) <= 4)%nat /\ (List.length (as_left ds) = 4%nat -> coord 0 (as_left ds) = 1) /\ prod (as_left ds) = prod ds.
Proof. intros N L B. destruct ds as [|a [|b ds]]; [congruence| |cbn [as_left]; auto]. split; [cbn; lia|]. split; [cbn; lia|cbn [as_left as_right prod]; ring]. Qed.
Lemma as_right_facts ds : ds <> [] -> (List.length ds <= 4)%nat -> (List.length ds = 4%nat -> coord 0 ds = 1) ->
  (List.length (as_right ds) <= 4)%nat /\ (List.length (as_right ds) = 4%nat -> coord 0 (as_right ds) = 1) /\ prod (as_right ds) = prod ds.
Proof. intros N L B. destruct ds as [|a [|b ds]]; [congruence| |cbn [as_right]; auto]. split; [cbn; lia|]. split; [cbn; lia|cbn [as_left as_right prod]; ring]. Qed.

Lemma prod_pos ds : Forall (fun n => 0 < n) ds -> 0 < prod ds.
Proof. induction 1 as [|n ds H _ IH]; cbn [prod]; [lia|nia]. Qed.
Lemma offset_range ds idx : inside ds idx -> 0 <= offset ds idx < prod ds.
Proof. induction 1 as [|n i ds idx H _ IH]; cbn [offset prod]; nia. Qed.
Lemma row_one k (s : list Z) M K : [1; k] = s ++ [M; K] -> M = 1.
Proof. intros E. destruct s as [|a [|b s]]; [injection E as <- _; reflexivity|discriminate E|]. apply (f_equal (@List.length Z)) in E. cbn [List.length] in E. rewrite app_length in E. cbn in E. lia. Qed.
Lemma column_one k (s : list Z) K Nn : [k; 1] = s ++ [K; Nn] -> Nn = 1.
Proof. intros E. destruct s as [|a [|b s]]; [injection E as _ <-; reflexivity|discriminate E|]. apply (f_equal (@List.length Z)) in E. cbn [List.length] in E. rewrite app_length in E. cbn in E. lia. Qed.
Section Ops.
  Variables (m : source) (env : string -> option tensor).
  Hypothesis F : run_facts m env.
  Notation cp := (cp m env F).

  Lemma gemm_layer a i wn bn b n o : (float_attr "alpha" (Some 1%R) a = Some 1%R \/ float_attr "beta" (Some 1%R) a <> Some 1%R) ->
    produced m i -> (exists t, stored m wn t) -> stored m bn (TFloat [n] b) -> (forall ds, announced m o ds -> coord 1 (run_dims ds) = n) -> produced m o ->
    op_holds "Gemm" a (map env [i; wn; bn]) (TFloat (run_dims (raw_shape m o)) (data env o)) ->
    exists rec L, good m env (mkONode "Gemm" a [i; wn; bn] o) rec L.
  Proof.
    intros AB Pi Pw Pb HN Po H. pose proof (cp _ Pi) as Ci. pose proof (cp _ Po) as Co. specialize (HN _ (cp_announced _ _ _ Co)).
    destruct (rf_stored _ _ F _ _ Pb) as (IB & EB).
    assert (X : exists tA tB alpha beta M Nn K w, int_attr "transA" (Some 0) a = Some tA /\ int_attr "transB" (Some 0) a = Some tB /\
      float_attr "alpha" (Some 1%R) a = Some alpha /\ float_attr "beta" (Some 1%R) a = Some beta /\
      run_dims (raw_shape m i) = (if negb (tA =? 0) then [K; M] else [M; K]) /\ env wn = Some (TFloat (if negb (tB =? 0) then [Nn; K] else [K; Nn]) w) /\
      run_dims (raw_shape m o) = [M; Nn] /\ gemm_value Rnum (negb (tA =? 0)) (negb (tB =? 0)) alpha beta M Nn K [n] (data env i) w b (data env o)).
    { clear HN. cbn [map] in H. rewrite EB in H. inversion H; subst; no_reduction; clear H. match goal with G : node_holds _ _ _ _ |- _ => inv_node G end.
      match goal with G : Some (TFloat _ ?x) = env i |- _ => destruct (computed_is _ _ _ _ _ Ci (eq_sym G)) as (DI & DX) end.
      exists tA, tB, alpha, beta, M, Nn, K, w. rewrite DX. split; [assumption|]. split; [assumption|]. split; [assumption|]. split; [assumption|]. split; [exact DI|].
      split; [first [symmetry; assumption|reflexivity]|]. split; [first [symmetry; assumption|reflexivity]|]. assumption. }
    destruct X as (tA & tB & alpha & beta & M & Nn & K & w & TA & TB & AA & BB & DI & EW & DO & HV).
    assert (EN : Nn = n) by (rewrite DO in HN; exact HN). subst Nn. clear HN.
    destruct (int_read _ _ _ _ TA) as (otA & RA & OA). destruct (int_read _ _ _ _ TB) as (otB & RB & OB).
    destruct (float_read _ _ _ _ AA) as (oal & RAL & OAL). destruct (float_read _ _ _ _ BB) as (obe & RBE & OBE).
    assert (NA : nonzero otA = negb (tA =? 0)) by (destruct otA; cbn in OA |- *; subst; reflexivity).
    assert (NBz : nonzero otB = negb (tB =? 0)) by (destruct otB; cbn in OB |- *; subst; reflexivity).
    assert (PI : Forall (fun n => 0 < n) (run_dims (raw_shape m i))) by (apply run_dims_pos; apply (cp_sample _ _ _ Ci)).
    assert (PO : Forall (fun n => 0 < n) (run_dims (raw_shape m o))) by (apply run_dims_pos; apply (cp_sample _ _ _ Co)).
    assert (POS : 0 < M /\ 0 < n /\ 0 < K).
    { clear -PI PO DI DO. rewrite DI in PI. rewrite DO in PO. inversion PO as [|? ? P1 PO1]; subst. inversion PO1 as [|? ? P2 _]; subst. destruct (negb (tA =? 0)); inversion PI as [|? ? Q1 PI1]; subst; inversion PI1 as [|? ? Q2 _]; subst; auto. }
    destruct POS as (PM & PN & PK).
    assert (ZX : zlen (data env i) = M * K) by (rewrite (cp_size _ _ _ Ci), DI; destruct (negb (tA =? 0)); cbn [prod]; ring).
    assert (ZW : zlen w = K * n) by (destruct (rf_sized _ _ F _ _ EW) as (_ & ->); destruct (negb (tB =? 0)); cbn [prod]; ring).
    assert (ZB : zlen b = n) by (destruct (rf_sized _ _ F _ _ EB) as (_ & ->); cbn [prod]; ring).
    assert (OR1 : or_one Rnum oal = alpha) by (destruct oal; exact OAL). assert (OR2 : or_one Rnum obe = beta) by (destruct obe; exact OBE).
    destruct (C62_gemm Rnum (fl_ring Rnum Rnum_field) Rnum_order (raw_shape m i) (raw_shape m o) (negb (tA =? 0)) (negb (tB =? 0)) oal obe M n K w b (data env i)) as (L & EL & OK).
    { apply (cp_sample _ _ _ Ci). } { apply (cp_sample _ _ _ Co). } { exact DI. } { exact DO. }
    { rewrite OR1, OR2. destruct AB as [AB|AB]; [left; rewrite AB in AA; injection AA as <-; reflexivity|right]. apply neq_R. intros ->. apply AB. exact BB. }
    { exact ZX. } { exact ZW. } { exact ZB. }
    assert (FL : gl_m L = M /\ gl_n L = n /\ gl_k L = K).
    { unfold create_gemm in EL. cbn [bind] in EL. destruct (cp_sample _ _ _ Ci) as (S1 & S2 & _). destruct (cp_sample _ _ _ Co) as (S3 & S4 & _). rewrite (get_shape_eq _ S1 S2), (get_shape_eq _ S3 S4), DI, DO in EL.
      assert (LI : List.length (raw_shape m i) = 2%nat) by (rewrite <- run_dims_length, DI; destruct (negb (tA =? 0)); reflexivity).
      assert (LO : List.length (raw_shape m o) = 2%nat) by (rewrite <- run_dims_length, DO; reflexivity).
      rewrite ?LI, ?LO in EL.
      destruct (negb (tA =? 0)), (negb (tB =? 0)); cbn [Nat.sub repeat Datatypes.app dims3 bind] in EL; unfold rdl in EL; cbn [Z.ltb Z.compare Z.to_nat nth_error Pos.to_nat Pos.iter_op bind Nat.add] in EL.
      all: destruct (Linear.gemm_check _ _ _ _); try discriminate EL; change (Pos.to_nat 1) with 1%nat in EL; cbn [nth_error bind] in EL.
      all: match type of EL with (if ?b then _ else _) = _ => destruct b; [|discriminate EL] end; apply some_inj in EL; try subst L; rewrite <- ?EL; cbn; auto. }
    destruct FL as (F1 & F2 & F3).
    eexists [i], _. apply good_of.
    - unfold import_layer. cbn [n_op n_attrs n_inputs n_output]. cbn [String.eqb Ascii.eqb Bool.eqb]. rewrite RA, RB, RAL, RBE. cbn [bind]. rewrite (floats_stored _ _ _ _ _ F Pw EW). cbn [bind]. unfold floats. rewrite IB. cbn [bind fst snd]. rewrite NA, NBz, EL. cbn [bind]. reflexivity.
    - intros z Hz. destruct Hz as [<-|[]]. left. reflexivity.
    - reflexivity.
    - split; [apply lin_supported|]. cbn [lkind plain map]. rewrite F1, F2, F3. split; [f_equal; exact ZX|]. repeat (split; [lia|]). split; [exact ZW|]. split; [exact ZB|]. right. exact (fl_ring Rnum Rnum_field).
    - cbn [lkind plain out_size n_output]. rewrite F1, F2, (cp_size _ _ _ Co), DO. cbn [prod]. ring.
    - intros ninf q. destruct (OK (Out 1) (Out 0) (fun v => v) ltac:(discriminate) ltac:(discriminate)) as (y & HY & LY). cbn [n_output map List.length]. change (slots 1) with [Out 1]. rewrite map_id in LY.
      assert (EY : data env o = y). { rewrite OR1, OR2 in HY. eapply gemm_det; [|exact HV|exact HY]. rewrite <- DO. apply run_sized. apply (cp_sample _ _ _ Co). }
      rewrite EY. eexists _, _. exact LY.
  Qed.

  (** An operand of MatMul. *)
  Lemma operand_facts nm ds x : operand_ok m nm -> env nm = Some (TFloat ds x) -> ds <> [] ->
    operand_dims m nm ds /\ data env nm = x /\ run_shape (operand_of m nm) = ds /\ proper (operand_of m nm) /\ zlen x = prod ds /\
    (List.length ds <= 4)%nat /\ (List.length ds = 4%nat -> coord 0 ds = 1) /\ Forall (fun n => 0 < n) ds /\ collected (operand_of m nm) = ds.
  Proof.
    intros O E NE. destruct (rf_sized _ _ F _ _ E) as (_ & ZX). destruct O as [P|(ds' & x' & HS & (D1 & D2 & D3))].
    - pose proof (cp _ P) as C. destruct (computed_is _ _ _ _ _ C E) as (DI & DX). unfold operand_of. rewrite (cp_init _ _ _ C). cbn [run_shape collected].
      pose proof (cp_sample _ _ _ C) as SP. destruct SP as (L4 & NN & B4).
      assert (LL : List.length ds = List.length (raw_shape m nm)) by (rewrite <- DI; apply run_dims_length). unfold zlen in L4.
      assert (BB : List.length ds = 4%nat -> coord 0 ds = 1) by (intros G; rewrite <- DI; apply B4; unfold zlen; lia).
      split; [left; exists (raw_shape m nm); split; [apply (cp_announced _ _ _ C)|symmetry; exact DI]|]. split; [exact DX|]. split; [exact DI|].
      split; [split; [cbn [run_shape]; rewrite DI; lia|split; [cbn [run_shape]; rewrite DI; exact BB|exact NN]]|]. split; [exact ZX|]. split; [lia|]. split; [exact BB|]. split; [rewrite <- DI; apply run_dims_pos; exact NN|].
      rewrite resolve_run by exact NN. exact DI.
    - destruct (rf_stored _ _ F _ _ HS) as (EI & EE). rewrite EE in E. injection E as -> ->. unfold operand_of. rewrite EI. cbn [run_shape collected].
      split; [right; exists x; exact HS|]. split; [unfold data; rewrite EE; reflexivity|]. split; [reflexivity|].
      split; [split; [cbn [run_shape]; destruct ds; [congruence|cbn [List.length] in *; lia]|split; [exact D3|exact D1]]|]. split; [exact ZX|]. split; [exact D2|]. split; [exact D3|]. split; [exact D1|reflexivity].
  Qed.
  Lemma matmul_layer a i j o : operand_ok m i -> operand_ok m j ->
    (forall da db, operand_dims m i da -> operand_dims m j db -> da <> [] /\ db <> [] /\ prod (stack_dims (as_left da)) = prod (stack_dims (as_right db))) -> produced m o ->
    op_holds "MatMul" a (map env [i; j]) (TFloat (run_dims (raw_shape m o)) (data env o)) ->
    exists rec L, good m env (mkONode "MatMul" a [i; j] o) rec L.
  Proof.
    intros Oi Oj HD Po H. pose proof (cp _ Po) as Co.
    assert (X : exists da db sa sb stack M K Nn x w, env i = Some (TFloat da x) /\ env j = Some (TFloat db w) /\ as_left da = sa ++ [M; K] /\ as_right db = sb ++ [K; Nn] /\
      broadcast_shape [sa; sb] stack /\ multiplied Rnum sa sb stack M K Nn x w (data env o) /\ run_dims (raw_shape m o) = product_dims da db stack M Nn).
    { inversion H; subst; no_reduction; [match goal with G : node_holds _ _ _ _ |- _ => inv_node G end|]. repeat match goal with G : Some _ = env _ |- _ => symmetry in G end.
      exists da, db, sa, sb, stack, M, K, Nn, x, w. repeat (split; [first [assumption|reflexivity]|]). first [assumption|reflexivity|symmetry; assumption|congruence]. }
    destruct X as (da & db & sa & sb & stack & M & K & Nn & x & w & Ei & Ej & LA & RB & BS & HV & DO).
    assert (NEa : da <> []) by (intros ->; cbn in LA; destruct sa; discriminate). assert (NEb : db <> []) by (intros ->; cbn in RB; destruct sb; discriminate).
    destruct (operand_facts _ _ _ Oi Ei NEa) as (Da & DXa & RSa & PRa & ZXa & L4a & B4a & POSa & COa).
    destruct (operand_facts _ _ _ Oj Ej NEb) as (Db & DXb & RSb & PRb & ZXb & L4b & B4b & POSb & COb).
    destruct (HD _ _ Da Db) as (_ & _ & PS). rewrite LA, RB, !stack_of in PS.
    destruct (as_left_facts _ NEa L4a B4a) as (A1 & A2 & A3). destruct (as_right_facts _ NEb L4b B4b) as (B1 & B2 & B3).
    assert (SL : List.length stack = Nat.max (List.length sa) (List.length sb)).
    { destruct BS as (G1 & (dm & [<-|[<-|[]]] & G2) & _); pose proof (G1 sa (or_introl eq_refl)); pose proof (G1 sb (or_intror (or_introl eq_refl))); lia. }
    destruct (C62_matmul Rnum (operand_of m i) (operand_of m j) (raw_shape m o) sa sb stack M K Nn x w PRa PRb) as (L & EL & OK).
    { apply (cp_sample _ _ _ Co). } { rewrite RSa. exact LA. } { rewrite RSb. exact RB. } { exact PS. } { exact BS. } { exact SL. } { rewrite RSa, RSb. exact DO. } { rewrite RSa. exact ZXa. } { rewrite RSb. exact ZXb. }
    assert (LDa : lead da = [1; prod sa; M; K]) by (rewrite <- lead_left, LA; apply lead_stack; rewrite <- LA; assumption).
    assert (LDb : lead (if (List.length db <? 2)%nat then db ++ [1] else db) = [1; prod sb; K; Nn]).
    { transitivity (lead (as_right db)); [|rewrite RB; apply lead_stack; rewrite <- RB; assumption]. destruct db as [|z0 [|z1 db]]; [congruence|reflexivity|reflexivity]. }
    assert (FL : L = mkMatMulLayer (prod sa) M Nn K).
    { unfold create_matmul in EL. rewrite COa, COb, LDa, LDb in EL. match type of EL with (if ?b then _ else _) = _ => destruct b; [|discriminate EL] end. apply some_inj in EL. first [exact EL|symmetry; exact EL]. }
    subst L. cbn [ml_C ml_OH ml_OW ml_K] in OK.
    assert (POS : 0 < prod sa /\ 0 < M /\ 0 < K /\ 0 < Nn).
    { assert (PA : Forall (fun n => 0 < n) (sa ++ [M; K])) by (rewrite <- LA; destruct da as [|z0 [|z1 da]]; [congruence|clear -POSa; cbn [as_left]; inversion POSa; constructor; [lia|constructor; [assumption|constructor]]|exact POSa]).
      assert (PB : Forall (fun n => 0 < n) (sb ++ [K; Nn])) by (rewrite <- RB; destruct db as [|z0 [|z1 db]]; [congruence|clear -POSb; cbn [as_right]; inversion POSb; constructor; [assumption|constructor; [lia|constructor]]|exact POSb]).
      apply Forall_app in PA. destruct PA as (PA & PA2). apply Forall_app in PB. destruct PB as (_ & PB2). inversion PA2 as [|? ? Q1 Q2]; subst. inversion Q2 as [|? ? Q3 _]; subst. inversion PB2 as [|? ? _ Q4]; subst. inversion Q4 as [|? ? Q5 _]; subst.
      split; [apply prod_pos; exact PA|]. auto. }
    destruct POS as (P1 & P2 & P3 & P4).
    assert (ZA : zlen x = prod sa * M * K) by (rewrite ZXa, <- A3, LA, prod_app; cbn [prod]; ring).
    assert (ZB : zlen w = prod sa * K * Nn) by (rewrite ZXb, <- B3, RB, prod_app, PS; cbn [prod]; ring).
    assert (STK : prod stack * M * Nn = prod (run_dims (raw_shape m o))).
    { rewrite DO. unfold product_dims. rewrite !prod_app. destruct da as [|z0 [|z1 da]]; [congruence| |]; (destruct db as [|u0 [|u1 db]]; [congruence| |]); cbn [prod].
      - rewrite (row_one _ _ _ _ LA), (column_one _ _ _ _ RB). ring.
      - rewrite (row_one _ _ _ _ LA). ring.
      - rewrite (column_one _ _ _ _ RB). ring.
      - ring. }
    destruct (OK (Out 1) (Out 2) (Out 0) (fun v => v) ltac:(discriminate) ltac:(discriminate) ltac:(discriminate)) as (y & HY & LY). rewrite map_id in LY.
    assert (PST : prod stack = prod sa).
    { assert (EF : find_size (get_shape (raw_shape m o)) = Nn * M * prod sa).
      { unfold create_matmul in EL. rewrite COa, COb, LDa, LDb in EL. match type of EL with (if ?b then _ else _) = _ => destruct b eqn:EB; [|discriminate EL] end. apply andb_true_iff in EB. destruct EB as (_ & EB). apply Z.eqb_eq in EB. exact EB. }
      destruct (sample_shape _ (cp_sample _ _ _ Co)) as (C' & H' & W' & Q1 & Q2 & Q3 & GE & PE). rewrite GE, find_size4 in EF by assumption.
      assert (C' * H' * W' = prod (run_dims (raw_shape m o))) by (rewrite <- (prod_lead (4 - List.length (raw_shape m o))), PE; symmetry; apply prod4). nia. }
    assert (SZ : sized (stack ++ [M; Nn])).
    { apply Forall_app. split; [|repeat constructor; lia]. assert (SR : sized (run_dims (raw_shape m o))) by (apply run_sized; apply (cp_sample _ _ _ Co)). rewrite DO in SR. unfold product_dims in SR. apply Forall_app in SR. apply SR. }
    exists [i; j], (plain (KMatMul Rnum (prod sa) M Nn K)). apply good_of.
    - unfold import_layer. cbn [n_op n_attrs n_inputs n_output]. cbn [String.eqb Ascii.eqb Bool.eqb]. rewrite EL. reflexivity.
    - intros z Hz. exact Hz.
    - reflexivity.
    - split; [apply lin_supported|]. cbn [lkind plain map]. rewrite DXa, DXb, ZA, ZB. split; [reflexivity|]. lia.
    - cbn [lkind plain out_size n_output]. rewrite (cp_size _ _ _ Co), <- STK, PST. reflexivity.
    - intros ninf q. cbn [n_output map List.length]. change (slots 2) with [Out 1; Out 2].
      assert (EY : data env o = y) by (eapply multiplied_det; [exact SZ|exact HV|exact HY]).
      rewrite EY, DXa, DXb. eexists _, _. exact LY.
  Qed.

  Lemma pad_layer a mode i pn ds ps vn v o : option_map padding_of (match attr_of "mode" a with Some (AStr s) => Some s | _ => None end) = Some (Some mode) ->
    produced m i -> rank4 m i -> stored m pn (TInt ds ps) -> stored m vn (TFloat [] [v]) ->
    Forall (fun p => 0 <= p) ps -> coord 0 ps = 0 -> coord 4 ps = 0 -> (forall ds, announced m i ds -> padding_fits mode (run_dims ds) ps) -> produced m o ->
    op_holds "Pad" a (map env [i; pn; vn]) (TFloat (run_dims (raw_shape m o)) (data env o)) ->
    exists rec L, good m env (mkONode "Pad" a [i; pn; vn] o) rec L.
  Proof.
    intros HM Pi HR Pp Pv FP P0 P4 HF Po H. pose proof (cp _ Pi) as Ci. pose proof (cp _ Po) as Co. specialize (HR _ (cp_announced _ _ _ Ci)). specialize (HF _ (cp_announced _ _ _ Ci)).
    destruct (rf_stored _ _ F _ _ Pp) as (IP & EP). destruct (rf_stored _ _ F _ _ Pv) as (IV & EV).
    assert (L4 : List.length (run_dims (raw_shape m i)) = 4%nat) by (rewrite run_dims_length; unfold zlen in HR; lia).
    assert (XX : exists C H0 W, run_dims (raw_shape m i) = [1; C; H0; W]).
    { pose proof (proj2 (proj2 (cp_sample _ _ _ Ci)) HR) as B. destruct (run_dims (raw_shape m i)) as [|d0 [|d1 [|d2 [|d3 [|? ?]]]]]; try discriminate L4. cbn in B. subst. eexists _, _, _. reflexivity. }
    destruct XX as (C & HH & W & DI). destruct (dims4_pos _ _ _ _ (cp_sample _ _ _ Ci) DI) as (PC & PH & PW).
    assert (AM : exists s, attr_of "mode" a = Some (AStr s) /\ padding_of s = Some mode).
    { destruct (attr_of "mode" a) as [[]|]; try discriminate HM. cbn in HM. injection HM as HM. eexists. split; [reflexivity|exact HM]. }
    destruct AM as (ms & AM & PM).
    assert (X : exists before after, ps = before ++ after /\ List.length before = 4%nat /\ List.length after = 4%nat /\ run_dims (raw_shape m o) = padded_dims [1; C; HH; W] before after /\ padded 0%R mode v [1; C; HH; W] before after (data env i) (data env o)).
    { cbn [map] in H. rewrite EP, EV in H. inversion H; subst; no_reduction; clear H. match goal with G : node_holds _ _ _ _ |- _ => inv_node G end.
      match goal with G : Some (TFloat _ ?x) = env i |- _ => destruct (computed_is _ _ _ _ _ Ci (eq_sym G)) as (DI' & DX) end. rewrite DI in DI'. subst ds0. rewrite <- DX in *. clear DX.
      match goal with G : bound_is _ _ |- _ => inversion G; subst; clear G end.
      match goal with G : option_map padding_of (str_attr _ _ _) = _ |- _ => unfold str_attr in G; rewrite AM in G; cbn [option_map] in G; rewrite PM in G; injection G as <- end.
      exists before, after. split; [reflexivity|]. split; [assumption|]. split; [assumption|]. split; [first [reflexivity|symmetry; assumption]|]. assumption. }
    destruct X as (before & after & -> & LB & LAf & DO & HV).
    destruct before as [|b0 [|pc [|ph [|pw [|? ?]]]]]; try discriminate LB. destruct after as [|a0 [|qc [|qh [|qw [|? ?]]]]]; try discriminate LAf.
    cbn in P0, P4. subst b0 a0.
    assert (ZX : zlen (data env i) = C * HH * W) by (rewrite (cp_size _ _ _ Ci), DI; apply prod4).
    assert (MO : mode_ok mode [1; C; HH; W] [0; pc; ph; pw]) by (rewrite DI in HF; destruct mode; exact HF).
    destruct (C63_pad R 0%R mode (raw_shape m i) (raw_shape m o) C HH W pc ph pw qc qh qw v Missing (data env i) (cp_sample _ _ _ Ci) (cp_sample _ _ _ Co) DI DO FP MO (or_introl eq_refl) ZX) as (L & EL & OK).
    assert (FL : L = mkPadLayer mode C HH W (Pad.mkPads pc ph pw qc qh qw) v).
    { unfold create_pad in EL. cbn [pad_axes bind Datatypes.app] in EL. rewrite (shape4' _ _ _ _ (cp_sample _ _ _ Ci) DI) in EL. cbn [dims3 bind] in EL. cbn [rdl nth_error Z.ltb Z.compare] in EL. unfold rdl in EL. change (Z.to_nat 1) with 1%nat in EL. change (Z.to_nat 2) with 2%nat in EL. change (Z.to_nat 3) with 3%nat in EL. change (Z.to_nat 5) with 5%nat in EL. change (Z.to_nat 6) with 6%nat in EL. change (Z.to_nat 7) with 7%nat in EL. cbn [Z.ltb Z.compare nth_error bind] in EL.
      match type of EL with (if ?b then _ else _) = _ => destruct b; [|discriminate EL] end. apply some_inj in EL. first [exact EL|symmetry; exact EL]. }
    cbn [Datatypes.app] in FP. 
    assert (FP' : 0 <= pc /\ 0 <= ph /\ 0 <= pw /\ 0 <= qc /\ 0 <= qh /\ 0 <= qw) by (repeat match goal with G : Forall _ (_ :: _) |- _ => inversion G; clear G; subst end; auto 10).
    exists [i], (plain (KPad Rnum (layer_mode mode v) C HH W (Pad.mkPads pc ph pw qc qh qw))). apply good_of.
    - unfold import_layer. cbn [n_op n_attrs n_inputs n_output]. cbn [String.eqb Ascii.eqb Bool.eqb]. unfold read_mode, opt_str. rewrite AM. cbn [bind]. rewrite PM. cbn [bind]. unfold integers, floats. rewrite IP, IV. cbn [bind fst snd]. rewrite EL, FL. reflexivity.
    - intros z Hz. destruct Hz as [<-|[]]. left. reflexivity.
    - reflexivity.
    - split; [apply lin_supported|]. cbn [lkind plain map]. split; [f_equal; exact ZX|]. split; [unfold Pad.pads_ok; cbn; lia|].
      destruct mode; cbn [layer_mode lact plain mode_ok] in *; try exact I; try (intros z; reflexivity).
      all: split; [intros z; reflexivity|]; cbn [tl] in MO; repeat match goal with G : Forall _ (_ :: _) |- _ => inversion G; clear G; subst | G : Forall2 _ (_ :: _) _ |- _ => inversion G; clear G; subst end; cbn; lia.
    - cbn [lkind plain out_size n_output]. rewrite (cp_size _ _ _ Co), DO. unfold padded_dims. cbn [map2]. rewrite Z.add_0_l, Z.add_0_r, prod4. unfold pad_size. cbn. ring.
    - intros ninf q. destruct (OK (Out 1) (Out 0) ltac:(discriminate) ltac:(discriminate)) as (y & HY & LY). cbn [n_output map List.length]. change (slots 1) with [Out 1].
      assert (EY : data env o = y) by (eapply padded_det; [|exact HV|exact HY]; rewrite <- DO; apply run_sized; apply (cp_sample _ _ _ Co)).
      rewrite EY. eexists _, _. rewrite FL in LY. destruct mode; exact LY.
  Qed.

  (** ** The nodes that only change the shape. *)
  Lemma reshape_keeps op a i rest o : In op ["Dropout"; "Unsqueeze"; "Reshape"; "Flatten"]%string -> produced m i -> produced m o ->
    op_holds op a (map env (i :: rest)) (TFloat (run_dims (raw_shape m o)) (data env o)) -> data env o = data env i.
  Proof.
    intros I Pi Po H. pose proof (cp _ Pi) as Ci. pose proof (cp _ Po) as Co. pose proof (run_sized _ (cp_sample _ _ _ Ci)) as SI. pose proof (run_sized _ (cp_sample _ _ _ Co)) as SO. pose proof (cp_size _ _ _ Ci) as ZI.
    cbn [map] in H. destruct I as [<-|[<-|[<-|[<-|[]]]]].
    - inversion H; subst; no_reduction; [match goal with G : node_holds _ _ _ _ |- _ => inv_node G end|]. match goal with G : Some (TFloat _ _) = env i |- _ => destruct (computed_is _ _ _ _ _ Ci (eq_sym G)) as (DI & DX) end. symmetry. exact DX.
    - inversion H; subst; no_reduction; [match goal with G : node_holds _ _ _ _ |- _ => inv_node G end|]. match goal with G : Some (TFloat _ _) = env i |- _ => destruct (computed_is _ _ _ _ _ Ci (eq_sym G)) as (DI & DX) end.
      match goal with G : insert_at _ _ _ = run_dims _ |- _ => rename G into DO end. match goal with G : unsqueezed _ _ _ _ _ |- _ => destruct G as (LU & HU) end.
      set (p := Z.to_nat (from_back (zlen ds + 1) k)) in *. rewrite <- DI in *. rewrite <- DX in HU. set (ds' := run_dims (raw_shape m i)) in *.
      assert (LP : (p <= List.length ds')%nat) by (unfold p; rewrite <- DI; clear -H5; unfold from_back, zlen in *; destruct (Z.ltb_spec k 0); lia).
      assert (PI1 : prod (insert_at p 1 ds') = prod ds') by (unfold insert_at; rewrite prod_app; cbn [prod]; rewrite <- (firstn_skipn p ds') at 3; rewrite prod_app; ring).
      apply (el_ext 0%R ds' _ _ SI); [rewrite LU; exact PI1|exact ZI|]. intros idx HI. rewrite <- (HU idx HI). unfold el. f_equal.
      unfold insert_at. rewrite <- (firstn_skipn p ds') at 1. rewrite <- (firstn_skipn p idx) at 1.
      rewrite !offset_app by (rewrite !firstn_length, (inside_len _ _ HI); reflexivity). cbn [offset prod]. ring.
    - inversion H; subst; no_reduction; [match goal with G : node_holds _ _ _ _ |- _ => inv_node G end|]. match goal with G : Some (TFloat _ _) = env i |- _ => destruct (computed_is _ _ _ _ _ Ci (eq_sym G)) as (DI & DX) end.
      match goal with G : reshaped _ _ _ _ _ |- _ => destruct G as (LU & HU) end. rewrite <- DI, <- DX in *.
      apply (el_ext 0%R _ _ _ SO); [exact LU|congruence|]. intros jdx HJ.
      assert (OJ : 0 <= offset (run_dims (raw_shape m o)) jdx < prod (run_dims (raw_shape m i))) by (match goal with G : prod _ = prod (run_dims (raw_shape m i)) |- _ => rewrite <- G end; apply offset_range; exact HJ).
      destruct (unoffset _ SI _ OJ) as (idx & HI & HO). rewrite (HU idx jdx HI HJ HO). unfold el. rewrite HO. reflexivity.
    - inversion H; subst; no_reduction. match goal with G : node_holds _ _ _ _ |- _ => inv_node G end. match goal with G : Some (TFloat _ _) = env i |- _ => destruct (computed_is _ _ _ _ _ Ci (eq_sym G)) as (DI & DX) end. rewrite <- DI, <- DX in *.
      eapply flattened_det; [exact SI|eassumption|]. apply (C65_flatten R 0%R); [assumption|exact ZI].
  Qed.
End Ops.
