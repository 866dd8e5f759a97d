(** * The layer of each covered ONNX node computes the node (used by C72). *)
From Coq Require Import String.
From Coq Require Import ZArith List Lia Bool Reals Lra QArith.
Import ListNotations.
Open Scope list_scope.
Open Scope Z_scope.
From Verif Require Import CMem Tensor Num RealInst Graph Import LayerKinds LayerKindsProofs OnnxOps OnnxLinear OnnxWindow OnnxMisc.
From Verif Require Activation Broadcast Pooling Pad Movement Conv KerasOps.
From Verif Require Import OnnxSpec OnnxOpsProofs OnnxWindowSpec OnnxLinearSpec OnnxMiscSpec ExportSpec ExportDet OnnxModelSpec OnnxModel.
From Verif Require Import PropertiesActivation PropertiesOnnxOps PropertiesOnnxReduce PropertiesOnnxWindow PropertiesOnnxElementwise PropertiesOnnxLinear PropertiesOnnxPad PropertiesOnnxActivation PropertiesOnnxBypass OnnxModelOps OnnxModelOps2.

Ltac inv_node H :=
  inversion H; subst; clear H; try discriminate;
  try (match goal with G : unary_of (String _ _) _ = Some _ |- _ => exfalso; vm_compute in G; discriminate G end);
  try (match goal with G : variadic_of (String _ _) = Some _ |- _ => exfalso; vm_compute in G; discriminate G end);
  try (match goal with G : binary_of (String _ _) = Some _ |- _ => exfalso; vm_compute in G; discriminate G end);
  try (match goal with G : reduction_of (String _ _) = Some _ |- _ => exfalso; vm_compute in G; discriminate G end);
  try (match goal with G : (?s = _ /\ _) \/ (?s = _ /\ _) |- _ => exfalso; destruct G as [(G & _)|(G & _)]; subst; discriminate end).
Ltac inv_op H := 
  inversion H; subst; clear H; try discriminate;
  [ match goal with
    | G : ~ In _ _ |- _ => exfalso; apply G; cbn; tauto
    | G : node_holds _ _ _ _ |- _ => inv_node G
    end | .. ] || (match goal with G : node_holds _ _ _ _ |- _ => inv_node G end).


Lemma some_inj {A} (a b : A) : Some a = Some b -> b = a. Proof. congruence. Qed.
Section Ops.
  Variables (m : source) (env : string -> option tensor).
  Hypothesis F : run_facts m env.
  Notation cp := (cp m env F).


  Lemma pool_layer op a k s auto t l b r i o : op = "MaxPool"%string \/ op = "AveragePool"%string /\ int_attr "count_include_pad" (Some 0) a = Some 0 ->
    attr_of "kernel_shape" a = Some (AInts [k; k]) ->
    ints_attr "strides" (Some [1; 1]) a = Some [s; s] -> ints_attr "dilations" (Some [1; 1]) a = Some [1; 1] ->
    auto_of a = Some auto -> ints_attr "pads" (Some [0; 0; 0; 0]) a = Some [t; l; b; r] -> 0 < k -> 0 < s ->
    (auto = NotSet -> 0 <= t < k /\ 0 <= l < k /\ 0 <= b < k /\ 0 <= r < k) ->
    (forall ds, announced m i ds -> fst (onnx_pads auto t b (coord 2 (run_dims ds)) k s 1) = fst (onnx_pads auto l r (coord 3 (run_dims ds)) k s 1)) ->
    produced m i -> produced m o ->
    op_holds op a (map env [i]) (TFloat (run_dims (raw_shape m o)) (data env o)) ->
    exists rec L, good m env (mkONode op a [i] o) rec L.
  Proof.
    intros HOP Ak As Ad Aa Ap Hk Hs HP HQ Pi Po H. pose proof (cp _ Pi) as Ci. pose proof (cp _ Po) as Co.
    specialize (HQ _ (cp_announced _ _ _ Ci)).
    assert (X : exists C HH W x, env i = Some (TFloat [1; C; HH; W] x) /\
       let ph := onnx_pads auto t b HH k s 1 in let pw := onnx_pads auto l r W k s 1 in
       run_dims (raw_shape m o) = [1; C; onnx_length HH ph k s 1; onnx_length W pw k s 1] /\
       (op = "MaxPool"%string /\ max_pooled Rnum C HH W k k s s 1 1 (fst ph) (fst pw) (onnx_length HH ph k s 1) (onnx_length W pw k s 1) x (data env o) \/
        op = "AveragePool"%string /\ average_pooled Rnum false C HH W k k s s 1 1 (fst ph) (fst pw) (onnx_length HH ph k s 1) (onnx_length W pw k s 1) x (data env o))).
    { assert (OPN : In op ["MaxPool"; "AveragePool"]%string) by (destruct HOP as [->|(-> & _)]; [left|right; left]; reflexivity).
      inversion H as [op' a' ins' out' HNI HN|aa|aa C HH W kh kw sh sw dh dw ph pw x y HW HCM HMP|aa C HH W kh kw sh sw dh dw ph pw inc x y HW HCM HINC HAP| | | | | |op' a' k' ds' kd' x' y' HRED]; subst; clear H; try (exfalso; destruct OPN as [G|[G|[]]]; subst; discriminate HRED);
        try (exfalso; destruct OPN as [G|[G|[]]]; discriminate G).
      - exfalso. apply HNI. destruct OPN as [<-|[<-|[]]]; [right; left|right; right; left]; reflexivity.
      - destruct HW as (Wk & Ws & Wd & auto' & top & lft & bot & rgt & Wa & Wp & -> & ->). unfold ints_attr in Wk. rewrite Ak in Wk. injection Wk as <- <-.
        rewrite As in Ws. injection Ws as <- <-. rewrite Ad in Wd. injection Wd as <- <-. rewrite Aa in Wa. injection Wa as <-. rewrite Ap in Wp. injection Wp as <- <- <- <-.
        exists C, HH, W, x. split; [congruence|]. cbv zeta. split; [congruence|]. left. split; [reflexivity|assumption].
      - destruct HW as (Wk & Ws & Wd & auto' & top & lft & bot & rgt & Wa & Wp & -> & ->). unfold ints_attr in Wk. rewrite Ak in Wk. injection Wk as <- <-.
        rewrite As in Ws. injection Ws as <- <-. rewrite Ad in Wd. injection Wd as <- <-. rewrite Aa in Wa. injection Wa as <-. rewrite Ap in Wp. injection Wp as <- <- <- <-.
        exists C, HH, W, x. split; [congruence|]. cbv zeta. split; [congruence|]. right. split; [reflexivity|].
        destruct HOP as [HOP|(_ & HOP)]; [discriminate|]. rewrite HOP in HINC. injection HINC as <-. assumption. }
    destruct X as (C & HH & W & x & EX & X). cbv zeta in X. destruct X as (DO & HV). destruct (computed_is _ _ _ _ _ Ci EX) as (DI & DX). clear EX H.
    rewrite DI in HQ. change (coord 2 [1; C; HH; W]) with HH in HQ. change (coord 3 [1; C; HH; W]) with W in HQ.
    destruct (window_read a None _ _ _ _ _ Ak As Ad Aa Ap) as (n & RW & Nk & Ns & Nd & Na & Np & Ng).
    set (ph := onnx_pads auto t b HH k s 1) in *. set (pw := onnx_pads auto l r W k s 1) in *.
    assert (SQ : square_node n k s t l b r) by (unfold square_node; rewrite Na; repeat (split; [assumption|]); exact HP).
    assert (EP : create_pool n (raw_shape m i) (raw_shape m o) = Some (Pooling.mkPool C HH W (onnx_length HH ph k s 1) (onnx_length W pw k s 1) k s (fst ph) (fst pw) (snd ph) (snd pw))).
    { pose proof (create_pool_ok n (raw_shape m i) (raw_shape m o) C HH W k s t l b r (onnx_length HH ph k s 1) (onnx_length W pw k s 1) (cp_sample _ _ _ Ci) (cp_sample _ _ _ Co) DI DO SQ) as G.
      rewrite Na in G. fold ph pw in G. apply (G eq_refl eq_refl). }
    destruct (dims4_pos _ _ _ _ (cp_sample _ _ _ Ci) DI) as (PC & PH & PW). destruct (dims4_pos _ _ _ _ (cp_sample _ _ _ Co) DO) as (PM & POH & POW).
    assert (ZX : zlen x = C * HH * W) by (rewrite <- DX; etransitivity; [exact (cp_size _ _ _ Ci)|rewrite DI; apply prod4]).
    set (P := Pooling.mkPool C HH W (onnx_length HH ph k s 1) (onnx_length W pw k s 1) k s (fst ph) (fst pw) (snd ph) (snd pw)) in *.
    assert (AC : forall K, K = KMaxPool Rnum P \/ K = KAvgPool Rnum P -> accepts Rnum (plain K) (map zlen (map (data env) [i])) /\ simple K = true /\ out_size Rnum K = zlen (data env o)).
    { intros K HK. split; [split; [apply lin_supported|]|].
      - destruct HK as [->| ->]; cbn [lkind plain map]; rewrite DX, ZX; (split; [reflexivity|]); unfold pool_supported, P; cbn; repeat (split; [lia|]); exact HQ.
      - split; [destruct HK as [->| ->]; reflexivity|]. rewrite (cp_size _ _ _ Co), DO, prod4. destruct HK as [->| ->]; reflexivity. }
    destruct HV as [(-> & HV)|(-> & HV)].
    - destruct (AC (KMaxPool Rnum P) (or_introl eq_refl)) as (A1 & A2 & A3). exists [i], (plain (KMaxPool Rnum P)). apply good_of; [|intros z Hz; exact Hz|exact A2|exact A1|exact A3|].
      + unfold import_layer. cbn [n_op n_attrs n_inputs n_output]. cbn [String.eqb Ascii.eqb Bool.eqb]. rewrite RW. cbn [bind]. rewrite EP. reflexivity.
      + intros ninf q. destruct (C59_max_pool Rnum ninf n (raw_shape m i) (raw_shape m o) C HH W k s t l b r (onnx_length HH ph k s 1) (onnx_length W pw k s 1) x Rnum_order
          (cp_sample _ _ _ Ci) (cp_sample _ _ _ Co) DI DO SQ) as (P' & EP' & OK); try (rewrite Na; assumption || reflexivity); [exact ZX|].
        rewrite EP in EP'. apply some_inj in EP'. subst P'. destruct (OK (Out 1) (Out 0) (fun v => v) ltac:(discriminate) ltac:(discriminate)) as (y & HY & LY).
        rewrite Na in HY. fold ph pw in HY. cbn [n_output map List.length]. change (slots 1) with [Out 1]. rewrite map_id in LY. rewrite DX.
        assert (EY : data env o = y) by (eapply max_pooled_det; [| | |exact HV|exact HY]; lia). rewrite EY. eexists _, _. exact LY.
    - destruct (AC (KAvgPool Rnum P) (or_intror eq_refl)) as (A1 & A2 & A3). exists [i], (plain (KAvgPool Rnum P)). apply good_of; [|intros z Hz; exact Hz|exact A2|exact A1|exact A3|].
      + unfold import_layer. cbn [n_op n_attrs n_inputs n_output]. cbn [String.eqb Ascii.eqb Bool.eqb]. rewrite RW. cbn [bind]. rewrite EP. reflexivity.
      + intros ninf q. destruct (C59_average_pool Rnum n (raw_shape m i) (raw_shape m o) C HH W k s t l b r (onnx_length HH ph k s 1) (onnx_length W pw k s 1) x
          (cp_sample _ _ _ Ci) (cp_sample _ _ _ Co) DI DO SQ) as (P' & EP' & OK); try (rewrite Na; assumption || reflexivity); [exact ZX|].
        rewrite EP in EP'. apply some_inj in EP'. subst P'. destruct (OK (Out 1) (Out 0) (fun v => v) ltac:(discriminate) ltac:(discriminate)) as (y & HY & LY).
        rewrite Na in HY. fold ph pw in HY. cbn [n_output map List.length]. change (slots 1) with [Out 1]. rewrite map_id in LY. rewrite DX.
        assert (EY : data env o = y).
        { destruct HV as (Z1 & HV). destruct HY as (Z2 & HY). refine (at3_ext 0%R C _ _ _ _ _ _ _ Z1 Z2 _); [lia|lia|lia|]. intros c0 i0 j0 Hc Hi Hj. exact (eq_trans (HV c0 i0 j0 Hc Hi Hj) (eq_sym (HY c0 i0 j0 Hc Hi Hj))). }
        rewrite EY. eexists _, _. exact LY.
  Qed.

  Lemma global_average_pool_layer a i o : produced m i -> (forall ds, announced m i ds -> coord 2 (run_dims ds) = coord 3 (run_dims ds)) -> produced m o ->
    op_holds "GlobalAveragePool" a (map env [i]) (TFloat (run_dims (raw_shape m o)) (data env o)) ->
    exists rec L, good m env (mkONode "GlobalAveragePool" a [i] o) rec L.
  Proof.
    intros Pi HQ Po H. pose proof (cp _ Pi) as Ci. pose proof (cp _ Po) as Co. specialize (HQ _ (cp_announced _ _ _ Ci)).
    inversion H; subst; no_reduction; clear H; [match goal with G : node_holds _ _ _ _ |- _ => inv_node G end|].
    repeat match goal with G : Some _ = env _ |- _ => symmetry in G end.
    match goal with G : env i = Some _ |- _ => destruct (computed_is _ _ _ _ _ Ci G) as (DI & DX); clear G end.
    match goal with G : [1; _; _; _] = run_dims _ |- _ => rename G into DO end. symmetry in DO.
    rewrite DI in HQ. change (H0 = W) in HQ. subst W. remember (zlen (data env o)) as C eqn:Z1. symmetry in Z1.
    destruct (dims4_pos _ _ _ _ (cp_sample _ _ _ Ci) DI) as (PC & PH & _).
    assert (ZX : zlen x = C * H0 * H0) by (rewrite <- DX; etransitivity; [exact (cp_size _ _ _ Ci)|rewrite DI; apply prod4]).
    destruct (C59_global_average_pool Rnum (raw_shape m i) (raw_shape m o) C H0 x (cp_sample _ _ _ Ci) (cp_sample _ _ _ Co) DI DO ZX) as (P & EP & OK).
    assert (FP : P = Pooling.mkPool C H0 H0 1 1 H0 1 0 0 0 0).
    { unfold create_global_average_pool, create_pool_with in EP. rewrite (shape4' _ _ _ _ (cp_sample _ _ _ Ci) DI), (shape4' _ _ _ _ (cp_sample _ _ _ Co) DO) in EP. change (rdl [1; C; H0; H0] 2) with (Some H0) in EP. cbn [bind dims3] in EP.
      cbn in EP. match type of EP with (if ?b then _ else _) = _ => destruct b; [|discriminate] end. injection EP as <-. reflexivity. }
    exists [i], (plain (KAvgPool Rnum P)). apply good_of; [|intros z Hz; exact Hz|reflexivity| | |].
    - unfold import_layer. cbn [n_op n_attrs n_inputs n_output]. cbn [String.eqb Ascii.eqb Bool.eqb]. rewrite EP. reflexivity.
    - split; [apply lin_supported|]. cbn [lkind plain map]. rewrite DX, FP. cbn. split; [f_equal; exact ZX|]. unfold pool_supported. cbn. lia.
    - cbn [lkind plain out_size n_output]. rewrite FP, (cp_size _ _ _ Co), DO, prod4. cbn. reflexivity.
    - intros ninf q. destruct (OK (Out 1) (Out 0) (fun v => v) ltac:(discriminate) ltac:(discriminate)) as (y & Z2 & HY & LY). cbn [n_output map List.length]. change (slots 1) with [Out 1]. rewrite map_id in LY. rewrite DX.
      assert (EY : data env o = y).
      { apply (nth_list_ext 0%R); [rewrite Z1; symmetry; exact Z2|]. intros k Hk. rewrite Z1 in Hk.
        match goal with G : forall c, 0 <= c < C -> nthZ 0%R (data env o) c = _ |- _ => exact (eq_trans (G k Hk) (eq_sym (HY k Hk))) end. }
      rewrite EY. eexists _, _. exact LY.
  Qed.

  Lemma batch_norm_layer a i ps o : produced m i -> rank4 m o -> (forall nm, In nm ps -> exists t, stored m nm t) -> produced m o ->
    op_holds "BatchNormalization" a (map env (i :: ps)) (TFloat (run_dims (raw_shape m o)) (data env o)) ->
    exists rec L, good m env (mkONode "BatchNormalization" a (i :: ps) o) rec L.
  Proof.
    intros Pi HR ST Po H. pose proof (cp _ Pi) as Ci. pose proof (cp _ Po) as Co. specialize (HR _ (cp_announced _ _ _ Co)).
    assert (X : exists C eps scale bias mean var sn bn mn vn, ps = [sn; bn; mn; vn] /\ env i = Some (TFloat (run_dims (raw_shape m o)) (data env i)) /\
      env sn = Some (TFloat [C] scale) /\ env bn = Some (TFloat [C] bias) /\ env mn = Some (TFloat [C] mean) /\ env vn = Some (TFloat [C] var) /\
      coord 1 (run_dims (raw_shape m o)) = C /\ float_attr "epsilon" (Some (1 / 100000)%R) a = Some eps /\
      batch_normalised Rnum (run_dims (raw_shape m o)) scale bias mean var eps (data env i) (data env o)).
    { inversion H; subst; no_reduction; clear H. match goal with G : node_holds _ _ _ _ |- _ => inv_node G end.
      destruct ps as [|sn [|bn [|mn [|vn [|? ?]]]]]; try discriminate. cbn [map] in *.
      match goal with G : _ = [env sn; env bn; env mn; env vn] |- _ => injection G as ? ? ? ? end.
      match goal with G : Some (TFloat _ ?x) = env i |- _ => destruct (computed_is _ _ _ _ _ Ci (eq_sym G)) as (_ & DX) end.
      rewrite DX. eexists _, _, _, _, _, _, sn, bn, mn, vn. split; [reflexivity|]. split; [reflexivity|].
      repeat (split; [solve [symmetry; eassumption | reflexivity | eassumption]|]). assumption. }
    destruct X as (C & eps & scale & bias & mean & var & sn & bn & mn & vn & -> & EX & Es & Eb & Em & Ev & EC & EE & HV).
    destruct (computed_is _ _ _ _ _ Ci EX) as (DI & _).
    assert (X : exists H0 W, run_dims (raw_shape m o) = [1; C; H0; W]).
    { pose proof (proj2 (proj2 (cp_sample _ _ _ Co)) HR) as B. assert (L : List.length (run_dims (raw_shape m o)) = 4%nat) by (rewrite run_dims_length; unfold zlen in HR; lia).
      destruct (run_dims (raw_shape m o)) as [|d0 [|d1 [|d2 [|d3 [|? ?]]]]]; try discriminate L. cbn in B, EC. subst. eexists _, _. reflexivity. }
    destruct X as (HH & W & DO). destruct (dims4_pos _ _ _ _ (cp_sample _ _ _ Co) DO) as (PC & PH & PW).
    assert (Z1 : forall nm v, In nm [sn; bn; mn; vn] -> env nm = Some (TFloat [C] v) -> floats m nm = Some ([C], v) /\ zlen v = C).
    { intros nm v IN E. split; [apply (floats_stored m env _ _ _ F (ST nm IN) E)|]. destruct (rf_sized _ _ F _ _ E) as (_ & Z0). cbn [prod] in Z0. lia. }
    destruct (Z1 sn scale (or_introl eq_refl) Es) as (Es1 & Es2). destruct (Z1 bn bias (or_intror (or_introl eq_refl)) Eb) as (Eb1 & Eb2).
    destruct (Z1 mn mean (or_intror (or_intror (or_introl eq_refl))) Em) as (Em1 & Em2). destruct (Z1 vn var (or_intror (or_intror (or_intror (or_introl eq_refl)))) Ev) as (Ev1 & Ev2).
    destruct (float_read _ _ _ _ EE) as (oe & Ee1 & Ee2).
    assert (ZX : zlen (data env i) = prod [1; C; HH; W]) by (rewrite <- DO, <- DI; exact (cp_size _ _ _ Ci)).
    destruct (C62_batch_normalisation Rnum (raw_shape m o) C HH W scale bias mean var eps (data env i) (cp_sample _ _ _ Co) DO Es2 Eb2 Em2 Ev2 ZX) as (L & EL & OK).
    assert (FL : bl_C L = C /\ bl_size L = HH * W).
    { unfold create_batch_norm in EL. rewrite (shape4' _ _ _ _ (cp_sample _ _ _ Co) DO) in EL. cbn [bind dims3] in EL. match type of EL with (if ?b then _ else _) = _ => destruct b; [|discriminate] end. injection EL as <-. split; reflexivity. }
    destruct FL as (FL1 & FL2).
    exists [i], (plain (KBatchNorm Rnum C HH W scale mean var bias eps)). apply good_of; [|intros z [<-|[]]; left; reflexivity|reflexivity| | |].
    - unfold import_layer. cbn [n_op n_attrs n_inputs n_output]. cbn [String.eqb Ascii.eqb Bool.eqb]. rewrite Ee1. cbn [bind]. rewrite Es1. cbn [bind]. rewrite Eb1. cbn [bind]. rewrite Em1. cbn [bind]. rewrite Ev1. cbn [bind snd].
      match goal with |- context [create_batch_norm ?r ?s1 ?s2 ?s3 ?s4] => replace (create_batch_norm r s1 s2 s3 s4) with (Some L) by (symmetry; exact EL) end. cbn [bind]. rewrite (shape4' _ _ _ _ (cp_sample _ _ _ Co) DO). cbn [bind dims3].
      repeat f_equal. exact Ee2.
    - split; [apply lin_supported|]. cbn [lkind plain map]. split; [f_equal; etransitivity; [exact ZX|rewrite prod4; ring]|]. repeat (split; [first [lia | assumption]|]). assumption.
    - cbn [lkind plain out_size n_output]. rewrite (cp_size _ _ _ Co), DO, prod4. ring.
    - intros ninf q. destruct (OK (Out 1) (Out 0) (fun v => v)) as (y & HY & LY). cbn [n_output map List.length]. change (slots 1) with [Out 1]. rewrite map_id in LY. rewrite FL1, FL2 in LY.
      assert (EY : data env o = y).
      { rewrite DO in HV. destruct HV as (ZZ1 & HV). destruct HY as (ZZ2 & HY). eapply (el_ext 0%R); [|exact ZZ1|exact ZZ2|intros idx HI; exact (eq_trans (HV idx HI) (eq_sym (HY idx HI)))]. rewrite <- DO. apply run_sized. apply (cp_sample _ _ _ Co). }
      rewrite EY. eexists _, _. exact LY.
  Qed.

  Lemma transpose_layer a p1 p2 p3 i o : produced m i -> rank4 m i -> attr_of "perm" a = Some (AInts [0; p1; p2; p3]) -> produced m o ->
    op_holds "Transpose" a (map env [i]) (TFloat (run_dims (raw_shape m o)) (data env o)) ->
    exists rec L, good m env (mkONode "Transpose" a [i] o) rec L.
  Proof.
    intros Pi HR Ap Po H. pose proof (cp _ Pi) as Ci. pose proof (cp _ Po) as Co. specialize (HR _ (cp_announced _ _ _ Ci)).
    assert (X : exists perm, map Z.of_nat perm = [0; p1; p2; p3] /\ NoDup perm /\ Forall (fun p => (p < List.length (run_dims (raw_shape m i)))%nat) perm /\
      transposed_nd 0%R (run_dims (raw_shape m i)) perm (data env i) (data env o) /\ run_dims (raw_shape m o) = permuted perm (run_dims (raw_shape m i))).
    { inversion H; subst; no_reduction; clear H. match goal with G : node_holds _ _ _ _ |- _ => inv_node G end.
      match goal with G : Some (TFloat _ ?x) = env i |- _ => destruct (computed_is _ _ _ _ _ Ci (eq_sym G)) as (DI & DX) end. rewrite DI, DX.
      exists perm. unfold ints_attr in *. rewrite Ap in *. match goal with G : Some [0; p1; p2; p3] = Some _ |- _ => injection G as G; rewrite <- G end.
      split; [congruence|]. repeat (split; [assumption|]). congruence. }
    destruct X as (perm & EP & ND & FP & HV & DO).
    assert (L4 : List.length (run_dims (raw_shape m i)) = 4%nat) by (rewrite run_dims_length; unfold zlen in HR; lia). rewrite L4 in FP.
    assert (E : perm = map Z.to_nat [0; p1; p2; p3]). { rewrite <- EP, map_map. rewrite <- (map_id perm) at 1. apply map_ext. intros z. rewrite Nat2Z.id. reflexivity. }
    assert (IP : Movement.is_perm p1 p2 p3).
    { destruct perm as [|q0 [|q1 [|q2 [|q3 [|? ?]]]]]; try discriminate EP. cbn [map] in EP. injection EP as E0 E1 E2 E3.
      inversion FP as [|? ? B0 FP1]; subst. inversion FP1 as [|? ? B1 FP2]; subst. inversion FP2 as [|? ? B2 FP3]; subst. inversion FP3 as [|? ? B3 _]; subst.
      inversion ND as [|? ? N0 ND1]; subst. inversion ND1 as [|? ? N1 ND2]; subst. inversion ND2 as [|? ? N2 _]; subst. cbn [In] in *. unfold Movement.is_perm.
      assert (q0 = 0%nat) by lia. subst q0. assert (q1 <> 0%nat /\ q2 <> 0%nat /\ q3 <> 0%nat /\ q1 <> q2 /\ q1 <> q3 /\ q2 <> q3) by (repeat split; intros ->; tauto). repeat split; lia. }
    assert (X : exists C H0 W, run_dims (raw_shape m i) = [1; C; H0; W]).
    { pose proof (proj2 (proj2 (cp_sample _ _ _ Ci)) HR) as B. destruct (run_dims (raw_shape m i)) as [|d0 [|d1 [|d2 [|d3 [|? ?]]]]]; try discriminate L4. cbn in B. subst. eexists _, _, _. reflexivity. }
    destruct X as (C & HH & W & DI). destruct (dims4_pos _ _ _ _ (cp_sample _ _ _ Ci) DI) as (PC & PH & PW).
    assert (ZX : zlen (data env i) = C * HH * W) by (rewrite (cp_size _ _ _ Ci), DI; apply prod4).
    destruct (C56_transpose R 0%R (raw_shape m i) (raw_shape m o) p1 p2 p3 (data env i) (cp_sample _ _ _ Ci) HR (cp_sample _ _ _ Co) IP ltac:(rewrite <- E; exact DO) (cp_size _ _ _ Ci)) as (L & EL & OK).
    assert (FL : L = mkTransposeLayer C HH W p1 p2 p3).
    { unfold create_transpose in EL. rewrite (shape4' _ _ _ _ (cp_sample _ _ _ Ci) DI) in EL. cbn [bind dims3] in EL. 
      destruct (rdl [1; C; HH; W] p1); [|discriminate]. cbn [bind] in EL. destruct (rdl [1; C; HH; W] p2); [|discriminate]. cbn [bind] in EL. destruct (rdl [1; C; HH; W] p3); [|discriminate]. cbn [bind] in EL.
      match type of EL with (if ?b then _ else _) = _ => destruct b; [|discriminate] end. injection EL as <-. reflexivity. }
    exists [i], (plain (KTranspose Rnum C HH W p1 p2 p3)). apply good_of; [|intros z Hz; exact Hz|reflexivity| | |].
    - unfold import_layer. cbn [n_op n_attrs n_inputs n_output]. cbn [String.eqb Ascii.eqb Bool.eqb]. unfold opt_ints. rewrite Ap. cbn [bind]. rewrite EL, FL. reflexivity.
    - split; [apply lin_supported|]. cbn [lkind plain map]. split; [f_equal; exact ZX|]. repeat (split; [lia|]). exact IP.
    - cbn [lkind plain out_size n_output]. rewrite (cp_size _ _ _ Co), DO, DI, E.
      assert (CS : (p1 = 1 /\ p2 = 2 /\ p3 = 3) \/ (p1 = 1 /\ p2 = 3 /\ p3 = 2) \/ (p1 = 2 /\ p2 = 1 /\ p3 = 3) \/ (p1 = 2 /\ p2 = 3 /\ p3 = 1) \/ (p1 = 3 /\ p2 = 1 /\ p3 = 2) \/ (p1 = 3 /\ p2 = 2 /\ p3 = 1)) by (unfold Movement.is_perm in IP; lia).
      destruct CS as [(-> & -> & ->)|[(-> & -> & ->)|[(-> & -> & ->)|[(-> & -> & ->)|[(-> & -> & ->)|(-> & -> & ->)]]]]]; unfold permuted, coord; simpl map; simpl nth; unfold prod; ring.
    - intros ninf q. destruct (OK (Out 1) (Out 0) (fun v => v) ltac:(discriminate) ltac:(discriminate)) as (y & HY & LY). cbn [n_output map List.length]. change (slots 1) with [Out 1]. rewrite map_id in LY.
      assert (EY : data env o = y).
      { rewrite <- E in HY. eapply transposed_det; [| | | |exact HV|exact HY]; [rewrite <- DO; apply run_sized; apply (cp_sample _ _ _ Co)|exact ND|rewrite L4, E; reflexivity|rewrite L4; exact FP]. }
      rewrite EY. eexists _, _. rewrite FL in LY. exact LY.
  Qed.

  Lemma extended_dims raw : one_sample raw -> exists C H W, 0 < C /\ 0 < H /\ 0 < W /\ get_shape raw = [1; C; H; W] /\ prod (run_dims raw) = C * H * W.
  Proof.
    intros O. destruct (sample_shape _ O) as (C & H & W & P1 & P2 & P3 & E1 & E2). exists C, H, W. repeat (split; [assumption|]).
    rewrite <- (prod_ones (4 - List.length raw)), E2. apply prod4.
  Qed.

  Lemma softmax_node a i o k : 13 <= s_opset m -> produced m i -> int_attr "axis" (Some (-1)) a = Some k -> sample_axis m i k ->
    (forall ds, announced m i ds -> In (prod (run_dims ds)) (1 :: run_dims ds) -> coord (axis_pos ds k) (run_dims ds) = prod (run_dims ds)) -> produced m o ->
    op_holds "Softmax" a (map env [i]) (TFloat (run_dims (raw_shape m o)) (data env o)) ->
    exists rec L, good m env (mkONode "Softmax" a [i] o) rec L.
  Proof.
    intros HO Pi Ak HS HF Po H. pose proof (cp _ Pi) as Ci. pose proof (cp _ Po) as Co. destruct (HS _ (cp_announced _ _ _ Ci)) as (VA & NB). specialize (HF _ (cp_announced _ _ _ Ci)).
    set (raw := raw_shape m i) in *. set (ds := run_dims raw) in *.
    assert (LD : zlen ds = zlen raw) by (unfold zlen, ds; rewrite run_dims_length; reflexivity).
    assert (AP : axis_pos raw k = axis_pos ds k) by (unfold axis_pos; rewrite LD; reflexivity). rewrite AP in NB, HF. rewrite <- LD in NB.
    assert (VA' : valid_axis ds k) by (unfold valid_axis in *; rewrite LD; exact VA).
    assert (X : softmaxed Rnum ds [axis_pos ds k] (data env i) (data env o) /\ run_dims (raw_shape m o) = ds).
    { inversion H; subst; no_reduction; clear H. match goal with G : node_holds _ _ _ _ |- _ => inv_node G end.
      match goal with G : Some (TFloat _ ?x) = env i |- _ => destruct (computed_is _ _ _ _ _ Ci (eq_sym G)) as (DI & DX) end. fold raw ds in DI.
      rewrite Ak in *. match goal with G : option_map _ (Some k) = Some _ |- _ => injection G as G end. rewrite DX. rewrite DI in *. match goal with G : axis_pos _ k = p |- _ => rewrite G end.
      split; [congruence|reflexivity]. }
    destruct X as (HV & DO). destruct (int_read _ _ _ _ Ak) as (ax & Ea1 & Ea2).
    assert (Ea3 : match ax with Some v => v | None => -1 end = k) by (destruct ax; exact Ea2).
    destruct (C60_softmax Rnum (s_opset m) raw (raw_shape m o) ax (data env i) (cp_sample _ _ _ Ci) (proj1 (proj2 (cp_sample _ _ _ Co))) DO) as (L & EL & OK).
    { fold ds. rewrite Ea3. exact VA'. }
    { fold ds. rewrite Ea3. exact NB. }
    { left. exact HO. }
    { fold ds. rewrite Ea3. exact HF. }
    { exact (cp_size _ _ _ Ci). }
    destruct (extended_dims _ (cp_sample _ _ _ Co)) as (C & HH & W & PC & PH & PW & ES & EP).
    assert (FL : s_C L = C /\ s_H L = HH /\ s_W L = W /\ 1 <= s_axis L <= 3).
    { unfold create_softmax in EL. rewrite ES in EL. cbn [bind dims3] in EL. 
      match type of EL with (if (?b1 && ?b2) then _ else _) = _ => destruct b1; [|discriminate]; destruct b2 eqn:EX; [|discriminate] end. cbn [andb] in EL. apply some_inj in EL. subst L. cbn [s_C s_H s_W s_axis].
      repeat (split; [reflexivity|]). cbn [existsb] in EX. lia. }
    destruct FL as (F1 & F2 & F3 & F4).
    exists [i], (plain (KSoftmax Rnum (s_C L) (s_H L) (s_W L) (s_axis L))). apply good_of; [|intros z Hz; exact Hz|reflexivity| | |].
    - unfold import_layer. cbn [n_op n_attrs n_inputs n_output]. cbn [String.eqb Ascii.eqb Bool.eqb]. rewrite Ea1. cbn [bind]. fold raw. rewrite EL. reflexivity.
    - split; [apply lin_supported|]. cbn [lkind plain map]. rewrite F1, F2, F3. split; [f_equal; rewrite (cp_size _ _ _ Ci); fold raw ds; rewrite <- DO; exact EP|]. repeat (split; [lia|]). reflexivity.
    - cbn [lkind plain out_size n_output]. rewrite (cp_size _ _ _ Co), F1, F2, F3. symmetry. exact EP.
    - intros ninf q. destruct (OK (Out 1) (Out 0) ltac:(discriminate) ltac:(discriminate)) as (y & HY & LY). cbn [n_output map List.length]. change (slots 1) with [Out 1].
      assert (EY : data env o = y).
      { unfold softmax_axes in HY. replace (s_opset m <? 13) with false in HY by (symmetry; apply Z.ltb_ge; lia). fold ds in HY. rewrite Ea3 in HY. destruct HV as (Z1 & HV). destruct HY as (Z2 & HY).
        eapply (el_ext 0%R); [|exact Z1|exact Z2|intros idx HI; exact (eq_trans (HV idx HI) (eq_sym (HY idx HI)))]. apply run_sized. apply (cp_sample _ _ _ Ci). }
      rewrite EY. eexists _, _. exact LY.
  Qed.
End Ops.
