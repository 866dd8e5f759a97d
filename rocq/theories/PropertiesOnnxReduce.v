(** * Property C60: ONNX Reduce and Softmax nodes of every rank are imported
    with their ONNX meaning.  The operators are specified in OnnxSpec.v. *)
From Coq Require Import ZArith List Lia Bool Reals Lra.
Import ListNotations.
Open Scope Z_scope.
From Verif Require Import CMem Tensor Num NumInst RealInst Reduce ReduceProofs Pooling PoolingProofs PropertiesMovement PropertiesReduce
  OnnxSpec OnnxOps OnnxOpsProofs OnnxReduceProofs.

(** ReduceMax and ReduceMin: one axis, all of them by default, or the last
    three (the generated code is wrong on two, C30). *)
Definition comparable (k : rkind) (ds : list Z) (P : list nat) : Prop :=
  k = RMax \/ k = RMin ->
  (exists p, forall q, In q P -> q = p) \/
  (3 <= zlen ds /\ forall q, (length ds - 3 <= q < length ds)%nat -> In q P).

Lemma in_axes_red j (P : list nat) : 0 <= j -> in_axes j (map Z.of_nat P) = red (Z.to_nat j) P.
Proof.
  intros Hj. unfold in_axes, red. induction P as [|p P IH]; [reflexivity|]. cbn [map existsb]. rewrite IH. f_equal.
  destruct (Z.eqb_spec j (Z.of_nat p)), (Nat.eqb_spec (Z.to_nat j) p); lia.
Qed.
Lemma red_in j P : red j P = true <-> In j P.
Proof.
  unfold red. rewrite existsb_exists. split.
  - intros (q & Hq & E). apply Nat.eqb_eq in E. subst. exact Hq.
  - intros H. exists j. split; [exact H|apply Nat.eqb_refl].
Qed.
Lemma prod_reduced4 P C H W : prod (reduced_dims 0 P [1; C; H; W]) =
  (if red 1 P then 1 else C) * (if red 2 P then 1 else H) * (if red 3 P then 1 else W).
Proof. cbn [reduced_dims prod]. fold (red 1 P) (red 2 P) (red 3 P). destruct (existsb (Nat.eqb 0) P); ring. Qed.
Lemma find_size_prod raw : Forall (fun n => 0 <= n) raw -> find_size (get_shape raw) = prod (run_dims raw).
Proof.
  intros HP. unfold get_shape. rewrite resolve_run by exact HP. pose proof (run_dims_pos raw HP) as P.
  assert (G : forall l s, Forall (fun n => 0 < n) l -> fold_left (fun s i => if i =? 0 then s else s * i) l s = s * prod l).
  { induction l as [|n l IH]; intros s HF; cbn [fold_left prod]; [lia|]. inversion HF; subst.
    destruct (Z.eqb_spec n 0); [lia|]. rewrite IH by assumption. ring. }
  unfold find_size. destruct (run_dims raw) as [|n r] eqn:E; [reflexivity|]. cbn [extend].
  destruct (length (n :: r) <=? 4)%nat.
  - rewrite G, prod_ones; [lia|]. apply Forall_app. split; [|exact P]. apply Forall_forall. intros a Ha. apply repeat_spec in Ha. lia.
  - rewrite G by exact P. lia.
Qed.

(** Reduce nodes (opset [since] or later) whose axes are listed in the second
    input, or absent: the import succeeds and the generated code computes them. *)
Lemma reduce_imported : forall (N : num) k since opset raw_in raw_out axes noop x,
  one_sample raw_in -> Forall (fun n => 0 <= n) raw_out -> since <= opset ->
  let ds := run_dims raw_in in
  Forall (valid_axis ds) axes -> (zlen ds = 4 -> ~ In 0%nat (map (axis_pos ds) axes)) ->
  (axes = [] -> noop = false) ->
  let P := reduced_axes ds axes in
  (axes <> [] -> comparable k ds P) ->
  prod (run_dims raw_out) = prod (reduced_dims 0 P ds) ->
  zlen x = prod ds ->
  exists L, create_reduce since opset raw_in raw_out (Some axes) noop = Some L /\ reduce_supported k (r_axes L) (r_noop L) /\
    (axes = [] -> create_reduce since opset raw_in raw_out None noop = Some L) /\
    forall src out act, src <> Temp -> out <> Temp ->
    exists y, reduced N k ds P x y /\
      layer_ok (reduce_c N k src out (r_C L) (r_H L) (r_W L) (r_axes L) (r_noop L) act) [(src, x)] out (zlen y) (zlen y) (map act y).
Proof.
  intros N k since opset raw_in raw_out axes noop x HS HO HV ds HA HB HN P HK EP Hx.
  destruct (sample_shape raw_in HS) as (C & H & W & HC & HH & HW & E1 & E2). fold ds in E2.
  set (n := (4 - length raw_in)%nat) in *.
  assert (LD : length ds = length raw_in) by apply run_dims_length.
  assert (HLraw : (1 <= length raw_in <= 4)%nat) by (destruct HS as (HL & _); unfold zlen in HL; lia).
  assert (HX4 : zlen x = C * H * W) by (rewrite Hx, <- (prod_ones n), E2; apply prod4).
  assert (PD : Forall (fun n => 0 < n) ds) by (apply run_dims_pos; apply HS).
  unfold create_reduce. destruct (Z.ltb_spec opset since); [lia|]. rewrite E1. cbn [dims3 bind]. rewrite find_size_prod by exact HO. rewrite EP.
  destruct axes as [|a0 axes0].
  { (* all axes *)
    rewrite (HN eq_refl). cbn [map existsb orb andb negb forallb].
    assert (ONES : forall p l, (forall q, (q < length l)%nat -> In (p + q)%nat P) -> reduced_dims p P l = repeat 1 (length l)).
    { intros p l. revert p. induction l as [|b l IH]; intros p HI; [reflexivity|]. cbn [reduced_dims length repeat].
      fold (red p P). replace (red p P) with true.
      - f_equal. apply IH. intros q Hq. replace (S p + q)%nat with (p + S q)%nat by lia. apply HI. cbn [length]. lia.
      - symmetry. apply red_in. specialize (HI O ltac:(cbn [length]; lia)). rewrite Nat.add_0_r in HI. exact HI. }
    assert (RD : reduced_dims 0 P ds = repeat 1 (length ds)).
    { apply ONES. intros q Hq. unfold P. cbn [reduced_axes]. apply in_seq. lia. }
    assert (PO : prod (reduced_dims 0 P ds) = 1) by (rewrite RD, <- (app_nil_r (repeat 1 _)), prod_ones; reflexivity).
    rewrite PO. change (1 =? 1 * 1 * 1) with true. eexists. split; [reflexivity|]. split; [cbn [r_axes r_noop]; split; [constructor|]; split; [reflexivity|]; intros _; left; split; reflexivity|]. split; [reflexivity|].
    intros src out act Hs Ho. cbn [r_C r_H r_W r_axes r_noop]. exists [red_value N k x]. split.
    - split; [rewrite PO; reflexivity|]. rewrite RD. intros idx HI.
      rewrite selected_all; auto.
      + unfold el. replace (offset (repeat 1 (length ds)) idx) with 0; [reflexivity|].
        clear -HI. remember (length ds) as m. clear Heqm. revert idx HI. induction m as [|m IH]; intros idx HI; [reflexivity|].
        inversion HI; subst. cbn [repeat offset]. rewrite <- IH by assumption. match goal with H : 0 <= ?y < 1 |- _ => replace y with 0 by lia end. reflexivity.
      + unfold inside in *. clear -HI PD.
        assert (G : forall m (l : list Z) idx, length l = m -> Forall (fun n => 0 < n) l -> Forall2 (fun n i => 0 <= i < n) (repeat 1 m) idx -> Forall2 (fun n i => 0 <= i < n) l idx).
        { induction m as [|m IH]; intros l i HL HP HF; inversion HF; subst; destruct l; try discriminate; [constructor|].
          inversion HP; subst. constructor; [lia|]. apply IH; auto. }
        eapply G; eauto.
      + intros q Hq Hn. exfalso. apply Hn. unfold P. cbn [reduced_axes]. apply in_seq. lia.
    - pose proof (C30_reduce N k src out C H W [] false act x Ho Hs HC HH HW HX4) as G. cbn [red_dim in_axes existsb empty_axes negb orb andb] in G.
      unfold reduce_py, red_dim in G. cbn [in_axes existsb empty_axes negb orb andb] in G.
      replace (red_cells N C H W true true true x) with (fun _ _ _ : Z => x) in G.
      + apply G. split; [constructor|]. split; [reflexivity|]. intros _. left. split; reflexivity.
      + symmetry. unfold red_cells. rewrite tab3_at3 by lia. reflexivity. }
  (* listed axes *)
  set (axes := a0 :: axes0) in *. change (map (axis_pos ds) axes) with P in HB. specialize (HK ltac:(discriminate)).
  set (E := map (import_axis [1; C; H; W] raw_in) axes).
  assert (EE : E = map Z.of_nat (map (Nat.add n) P)).
  { unfold E, P. change (reduced_axes ds axes) with (map (axis_pos ds) axes). rewrite !map_map. apply map_ext_in. intros a Ha.
    rewrite Forall_forall in HA. destruct (import_axis_eq raw_in a HS (HA a Ha)) as (EA & _). rewrite E1 in EA. exact EA. }
  assert (BP : forall p, In p P -> (p < length raw_in)%nat).
  { intros p Hp. unfold P in Hp. change (reduced_axes ds axes) with (map (axis_pos ds) axes) in Hp. apply in_map_iff in Hp. destruct Hp as (a & <- & Ha).
    rewrite Forall_forall in HA. apply (import_axis_eq raw_in a HS (HA a Ha)). }
  set (Q := map (Nat.add n) P) in *.
  assert (BQ : forall q, In q Q -> (1 <= q <= 3)%nat).
  { intros q Hq. unfold Q in Hq. apply in_map_iff in Hq. destruct Hq as (p & <- & Hp). pose proof (BP p Hp). unfold n.
    destruct (Nat.eq_dec (length raw_in) 4) as [E4|E4]; [|lia]. assert (p <> 0%nat); [|lia]. intros ->. apply HB; [unfold zlen; lia|exact Hp]. }
  assert (IA : forall j, 0 <= j -> in_axes j E = red (Z.to_nat j) Q) by (intros j Hj; rewrite EE; apply in_axes_red; exact Hj).
  assert (NE : E <> []) by discriminate.
  assert (EM : match E with [] => true | _ => false end = false) by reflexivity.
  pose proof (IA 1 ltac:(lia)) as I1. pose proof (IA 2 ltac:(lia)) as I2. pose proof (IA 3 ltac:(lia)) as I3.
  change (Z.to_nat 1) with 1%nat in I1. change (Z.to_nat 2) with 2%nat in I2. change (Z.to_nat 3) with 3%nat in I3.
  fold (in_axes 1 E) (in_axes 2 E) (in_axes 3 E). rewrite EM, !orb_false_r.
  assert (RDL : prod (reduced_dims 0 P ds) = prod (reduced_dims 0 Q [1; C; H; W])).
  { rewrite <- E2. unfold Q. rewrite reduced_dims_lift, prod_ones. reflexivity. }
  rewrite RDL, prod_reduced4, I1, I2, I3, Z.eqb_refl. cbn [andb].
  replace (forallb (fun a => (0 <=? a) && (a <? 4)) E) with true.
  2: { symmetry. apply forallb_forall. intros a Ha. rewrite EE in Ha. apply in_map_iff in Ha. destruct Ha as (q & <- & Hq). apply BQ in Hq.
       destruct (Z.leb_spec 0 (Z.of_nat q)); [|lia]. destruct (Z.ltb_spec (Z.of_nat q) 4); [reflexivity|lia]. }
  assert (RS : reduce_supported k E noop).
  { split; [|split; [discriminate|]].
    + rewrite EE. apply Forall_forall. intros a Ha. apply in_map_iff in Ha. destruct Ha as (q & <- & Hq). apply BQ in Hq. lia.
    + rewrite I1, I2, I3. intros KM. destruct (HK KM) as [(p & Hp)|(H3 & Hall)].
      * assert (U : forall i j, red i Q = true -> red j Q = true -> i = j).
        { intros i j Hi Hj. apply red_in in Hi, Hj. unfold Q in Hi, Hj. apply in_map_iff in Hi, Hj.
          destruct Hi as (pi & <- & Hi), Hj as (pj & <- & Hj). rewrite (Hp pi Hi), (Hp pj Hj). reflexivity. }
        destruct (red 1 Q) eqn:R1, (red 2 Q) eqn:R2, (red 3 Q) eqn:R3; auto 6;
          try (specialize (U 1%nat 2%nat R1 R2); discriminate); try (specialize (U 1%nat 3%nat R1 R3); discriminate);
          try (specialize (U 2%nat 3%nat R2 R3); discriminate).
      * left. assert (RT : forall j, (1 <= j <= 3)%nat -> red j Q = true).
        { intros j Hj. apply red_in. unfold Q. apply in_map_iff. exists (j - n)%nat. unfold n, zlen in *. split; [lia|]. apply Hall. lia. }
        rewrite !RT by lia. split; reflexivity. }
  eexists. split; [reflexivity|]. split; [exact RS|]. split; [discriminate|].
  intros src out act Hs Ho. cbn [r_C r_H r_W r_axes r_noop].
  set (OC := if red 1 Q then 1 else C). set (OH := if red 2 Q then 1 else H). set (OW := if red 3 Q then 1 else W).
  assert (POC : 0 < OC) by (unfold OC; destruct (red 1 Q); lia).
  assert (POH : 0 < OH) by (unfold OH; destruct (red 2 Q); lia).
  assert (POW : 0 < OW) by (unfold OW; destruct (red 3 Q); lia).
  assert (D1 : red_dim 1 C E noop = OC) by (unfold red_dim, OC; rewrite I1; change (empty_axes E) with false; rewrite orb_false_r; reflexivity).
  assert (D2 : red_dim 2 H E noop = OH) by (unfold red_dim, OH; rewrite I2; change (empty_axes E) with false; rewrite orb_false_r; reflexivity).
  assert (D3 : red_dim 3 W E noop = OW) by (unfold red_dim, OW; rewrite I3; change (empty_axes E) with false; rewrite orb_false_r; reflexivity).
  assert (PY : reduce_py N k C H W E noop x = tab3 OC OH OW (fun c h w => red_value N k (red_cells N C H W (red 1 Q) (red 2 Q) (red 3 Q) x c h w))).
  { unfold reduce_py. rewrite D1, D2, D3. change (empty_axes E) with false. cbn [andb orb]. rewrite I1, I2, I3. reflexivity. }
  exists (reduce_py N k C H W E noop x). split.
  - apply (reduced_lift N k n). rewrite E2. fold Q. split.
    + rewrite PY, zlen_tab3, prod_reduced4 by lia. reflexivity.
    + assert (R0 : reduced_dims 0 Q [1; C; H; W] = [1; OC; OH; OW]).
      { cbn [reduced_dims]. fold (red 0 Q) (red 1 Q) (red 2 Q) (red 3 Q). destruct (red 0 Q); reflexivity. }
      rewrite R0. intros idx HI. apply inside4 in HI. destruct HI as (c & h & w & -> & Hc & Hh & Hw).
      rewrite el4, PY, at3_tab3 by assumption. f_equal. symmetry. apply selected4; auto.
      * intros R. unfold OC in Hc. rewrite R in Hc. exact Hc.
      * intros R. unfold OH in Hh. rewrite R in Hh. exact Hh.
      * intros R. unfold OW in Hw. rewrite R in Hw. exact Hw.
  - assert (ZY : zlen (reduce_py N k C H W E noop x) = OC * OH * OW) by (rewrite PY; apply zlen_tab3; lia).
    rewrite ZY. pose proof (C30_reduce N k src out C H W E noop act x Ho Hs HC HH HW HX4) as G. cbv zeta in G. rewrite D1, D2, D3 in G.
    apply G. exact RS.
Qed.
Theorem C60_reduce : forall (N : num) k since opset raw_in raw_out axes noop x,
  one_sample raw_in -> Forall (fun n => 0 <= n) raw_out -> since <= opset ->
  let ds := run_dims raw_in in
  Forall (valid_axis ds) axes -> (zlen ds = 4 -> ~ In 0%nat (map (axis_pos ds) axes)) ->
  (axes = [] -> noop = false) ->
  let P := reduced_axes ds axes in
  (axes <> [] -> comparable k ds P) ->
  prod (run_dims raw_out) = prod (reduced_dims 0 P ds) ->
  zlen x = prod ds ->
  exists L, create_reduce since opset raw_in raw_out (Some axes) noop = Some L /\
    (axes = [] -> create_reduce since opset raw_in raw_out None noop = Some L) /\
    forall src out act, src <> Temp -> out <> Temp ->
    exists y, reduced N k ds P x y /\
      layer_ok (reduce_c N k src out (r_C L) (r_H L) (r_W L) (r_axes L) (r_noop L) act) [(src, x)] out (zlen y) (zlen y) (map act y).
Proof.
  intros N k since opset raw_in raw_out axes noop x HS HO HV ds HA HB HN P HK EP Hx.
  destruct (reduce_imported N k since opset raw_in raw_out axes noop x HS HO HV HA HB HN HK EP Hx) as (L & E1 & _ & E2). exists L. split; [exact E1|exact E2].
Qed.
Print Assumptions C60_reduce.

(** The constructor's test for a flat tensor (Softmax.py:50): one dimension
    holds all the elements. *)
Definition flat (ds : list Z) : Prop := In (prod ds) (1 :: ds).
Lemma flat4 C H W n ds : repeat 1 n ++ ds = [1; C; H; W] -> (one_dimension C H W = true <-> flat ds).
Proof.
  intros E. assert (EP : prod ds = C * H * W) by (rewrite <- (prod_ones n), E; apply prod4).
  unfold one_dimension, flat. rewrite EP, existsb_exists. split.
  - intros (q & Hq & EQ). apply Z.eqb_eq in EQ. subst q.
    assert (I : In (C * H * W) (repeat 1 n ++ ds)) by (rewrite E; exact Hq).
    apply in_app_or in I. destruct I as [I|I]; [apply repeat_spec in I; left; congruence|right; exact I].
  - intros [I|I]; exists (C * H * W); (split; [|apply Z.eqb_refl]).
    + left. exact I.
    + change (In (C * H * W) [1; C; H; W]). rewrite <- E. apply in_or_app. right. exact I.
Qed.

Lemma softmax_create raw_in raw_out opset axis C H W k :
  get_shape raw_in = [1; C; H; W] -> get_shape raw_out = [1; C; H; W] -> 0 < C -> 0 < H -> 0 < W ->
  softmax_axis opset raw_in raw_out axis = k -> 1 <= k <= 3 ->
  create_softmax opset raw_in raw_out axis = Some (mkSoftmaxLayer C H W k).
Proof.
  intros E1 E2 HC HH HW EK HK. unfold create_softmax. rewrite E2, EK. cbn [dims3 bind]. rewrite find_size4, Z.eqb_refl, orb_true_r by assumption.
  destruct (axis_cases k HK) as [->|[->| ->]]; reflexivity.
Qed.
Lemma same_shape raw_in raw_out : one_sample raw_in -> Forall (fun n => 0 <= n) raw_out -> run_dims raw_out = run_dims raw_in ->
  get_shape raw_out = get_shape raw_in.
Proof.
  intros (HL & HP & _) HO E. pose proof (f_equal (@length Z) E) as L. rewrite !run_dims_length in L. unfold zlen in HL.
  rewrite !get_shape_eq by (try assumption; unfold zlen; lia). rewrite E, L. reflexivity.
Qed.
Lemma softmax_axis_eq opset raw_in raw_out a C H W : get_shape raw_in = [1; C; H; W] -> get_shape raw_out = get_shape raw_in ->
  softmax_axis opset raw_in raw_out (Some a) = import_axis (get_shape raw_in) raw_in a.
Proof. intros E1 E2. unfold softmax_axis, import_axis. rewrite E2, E1. reflexivity. Qed.

Lemma softmaxed4 N C H W k x : 0 < C -> 0 < H -> 0 < W -> 1 <= k <= 3 -> one_dimension C H W = false ->
  softmaxed N [1; C; H; W] [Z.to_nat k] x (softmax_py N C H W k x).
Proof.
  intros HC HH HW HK One. unfold softmax_py. rewrite One. split; [rewrite zlen_tab3, prod4 by lia; reflexivity|].
  intros idx HI. apply inside4 in HI. destruct HI as (c & h & w & -> & Hc & Hh & Hw).
  rewrite !el4, at3_tab3 by assumption. f_equal. f_equal. rewrite <- (map_map (el (n0 N) [1; C; H; W] x) (nexp N)).
  rewrite selected4 by auto. destruct (axis_cases k HK) as [->|[->| ->]]; reflexivity.
Qed.

(** Softmax with an axis, or with the default one of opset 13 and later.  Before
    opset 13 the axis must be the last one.  When the tensor is flat, the axis
    must be the long one. *)
Theorem C60_softmax : forall (N : num) opset raw_in raw_out axis x,
  one_sample raw_in -> Forall (fun n => 0 <= n) raw_out ->
  let ds := run_dims raw_in in
  run_dims raw_out = ds ->
  let a := match axis with Some a => a | None => -1 end in
  valid_axis ds a -> (zlen ds = 4 -> axis_pos ds a <> 0%nat) ->
  (13 <= opset \/ (axis <> None /\ axis_pos ds a = pred (length ds))) ->
  (flat ds -> coord (axis_pos ds a) ds = prod ds) ->
  zlen x = prod ds ->
  exists L, create_softmax opset raw_in raw_out axis = Some L /\
    forall src out, src <> Temp -> out <> Temp ->
    exists y, softmaxed N ds (softmax_axes opset ds axis) x y /\
      layer_ok (softmax_c N src out (s_C L) (s_H L) (s_W L) (s_axis L) (fun v => v)) [(src, x)] out (zlen y) (zlen y) y.
Proof.
  intros N opset raw_in raw_out axis x HS HO ds ED a HV HB HOP HF Hx.
  destruct (axis_setup raw_in a HS HV HB) as (C & H & W & HC & HH & HW & E1 & E2 & k & EA & Hk & TK & LP & CO).
  fold ds in E2, TK, LP, CO.
  pose proof (same_shape raw_in raw_out HS HO ED) as ES.
  assert (SA : softmax_axis opset raw_in raw_out axis = k).
  { destruct axis as [a'|].
    - rewrite <- EA. eapply softmax_axis_eq; eauto.
    - destruct HOP as [HOP|(NN & _)]; [|congruence]. unfold softmax_axis. destruct (Z.ltb_spec opset 13); [lia|].
      rewrite ES. rewrite <- EA. unfold import_axis, a. reflexivity. }
  assert (PX : softmax_axes opset ds axis = [axis_pos ds a]).
  { unfold softmax_axes. destruct (Z.ltb_spec opset 13); [|reflexivity]. destruct HOP as [HOP|(NN & HOP)]; [lia|].
    destruct axis as [a'|]; [|congruence]. unfold a in *. rewrite HOP. replace (length ds - pred (length ds))%nat with 1%nat by lia. reflexivity. }
  exists (mkSoftmaxLayer C H W k). split; [apply softmax_create; auto; congruence|]. intros src out Hs Ho. cbn [s_C s_H s_W s_axis].
  assert (HX4 : zlen x = C * H * W) by (rewrite Hx, <- (prod_ones (4 - length raw_in)), E2; apply prod4).
  assert (PD : Forall (fun n => 0 < n) ds) by (apply run_dims_pos; apply HS).
  assert (ZY : zlen (softmax_py N C H W k x) = C * H * W).
  { unfold softmax_py. destruct (one_dimension C H W); [rewrite !zlen_map; exact HX4|apply zlen_tab3; lia]. }
  exists (softmax_py N C H W k x). split; [|rewrite ZY; apply C29_softmax; auto]. rewrite PX.
  destruct (one_dimension C H W) eqn:One.
  - assert (FL : flat ds) by (apply (flat4 C H W (4 - length raw_in)); assumption). specialize (HF FL).
    split; [rewrite ZY, <- (prod4 C H W), <- E2, prod_ones; reflexivity|]. intros idx HI.
    rewrite <- (map_map (el (n0 N) ds x) (nexp N)).
    assert (OT : forall q, (q < length ds)%nat -> q <> axis_pos ds a -> coord q ds = 1).
    { intros q Hq Hne. clear -HF PD Hq Hne LP. revert q Hq Hne HF LP. generalize (axis_pos ds a) as p. induction ds as [|n l IH]; intros p q Hq Hne HF LP; cbn [length] in *; [lia|].
      inversion PD; subst.
      assert (PP : forall l, Forall (fun n => 0 < n) l -> 0 < prod l) by (clear; induction l; intros HP; [reflexivity|inversion HP; subst; cbn [prod]; specialize (IHl H2); nia]).
      assert (DV : forall l p, Forall (fun n => 0 < n) l -> (p < length l)%nat -> 0 < coord p l /\ coord p l <= prod l).
      { clear -PP. induction l as [|b l IH]; intros p HP Hp; cbn [length] in Hp; [lia|]. inversion HP; subst. specialize (PP l H2).
        destruct p; cbn [coord nth prod]; [nia|]. specialize (IH p H2 ltac:(lia)). unfold coord in IH. nia. }
      specialize (PP l H2). destruct p as [|p], q as [|q]; cbn [coord nth prod] in *; [lia| | |].
      - destruct (DV l q H2 ltac:(lia)) as (G1 & _). unfold coord in *.
        assert (P1 : prod l = 1) by nia. clear HF. revert q Hq Hne G1. clear -H2 P1. induction l as [|b l IH]; intros q Hq Hne G1; cbn [length nth prod] in *; [lia|].
        inversion H2; subst. assert (0 < prod l) by (clear -H3; induction l; [reflexivity|inversion H3; subst; cbn [prod]; specialize (IHl H2); nia]).
        assert (b = 1 /\ prod l = 1) as (Eb & El) by nia. destruct q; cbn [nth]; [exact Eb|]. apply IH; auto; lia.
      - destruct (DV l p H2 ltac:(lia)) as (G1 & G2). unfold coord in *. nia.
      - destruct (DV l p H2 ltac:(lia)) as (G1 & G2). unfold coord in *. apply (IH H2 p q); try lia. nia. }
    rewrite selected_all; auto.
    + unfold softmax_py. rewrite One. cbv zeta. rewrite map_map. unfold el.
      assert (RG : 0 <= offset ds idx < zlen x).
      { rewrite Hx. clear -HI PD. revert PD. induction HI as [|n i l r Hi HI IH]; intros PD; [cbn; lia|]. inversion PD; subst. specialize (IH H2). cbn [prod offset]. nia. }
      rewrite (nthZ_map _ (n0 N)) by exact RG. reflexivity.
    + intros q Hq Hn. apply OT; [exact Hq|]. intros ->. apply Hn. left. reflexivity.
  - apply (softmaxed_lift N (4 - length raw_in)). rewrite E2. cbn [map]. rewrite <- TK. apply softmaxed4; auto.
Qed.
Print Assumptions C60_softmax.

(** Non-trivial nodes that meet the hypotheses. *)
Example C60_reduce_example :
  one_sample [0; 3; 4] /\ reduced_axes (run_dims [0; 3; 4]) [-1; 1] = [2; 1]%nat /\
  create_reduce 13 17 [0; 3; 4] [1; 1; 1] (Some [-1; 1]) false = Some (mkReduceLayer 1 3 4 [3; 2] false) /\
  create_reduce 18 18 [2; 3] [2] (Some [1]) false = Some (mkReduceLayer 1 2 3 [3] false) /\
  comparable RMax (run_dims [2; 3]) (reduced_axes (run_dims [2; 3]) [1]) /\
  result_of (reduce_c Znum RMax (Out 0) (Out 1) 1 2 3 [3] false (fun v => v) (red_mem [1; 5; 2; 4; 3; 9] 6)) (Out 1) 2 = Some [5; 9].
Proof.
  split; [|split; [reflexivity|split; [reflexivity|split; [reflexivity|split; [|reflexivity]]]]].
  - split; [cbn; lia|]. split; [repeat constructor; lia|]. cbn. discriminate.
  - intros _. left. exists 1%nat. intros q [<-|[]]. reflexivity.
Qed.
Example C60_softmax_example :
  create_softmax 17 [0; 3; 4] [0; 3; 4] None = Some (mkSoftmaxLayer 1 3 4 3) /\
  create_softmax 17 [0; 3; 4] [0; 3; 4] (Some (-2)) = Some (mkSoftmaxLayer 1 3 4 2) /\
  create_softmax 11 [0; 10] [0; 10] (Some 1) = Some (mkSoftmaxLayer 1 1 10 3) /\
  ~ flat (run_dims [0; 3; 4]) /\ (flat (run_dims [0; 10]) /\ coord 1 (run_dims [0; 10]) = prod (run_dims [0; 10])).
Proof.
  split; [reflexivity|]. split; [reflexivity|]. split; [reflexivity|]. split; [|split; [|reflexivity]].
  - intros [E|[E|[E|[E|[]]]]]; vm_compute in E; discriminate.
  - right. right. left. reflexivity.
Qed.

(** Before opset 13 (18 except for ReduceSum) a Reduce node is never imported. *)
Theorem C60_reduce_old_opset_refuted : forall since opset raw_in raw_out axes noop,
  opset < since -> create_reduce since opset raw_in raw_out axes noop = None.
Proof. intros. unfold create_reduce. destruct (Z.ltb_spec opset since); [reflexivity|lia]. Qed.
Print Assumptions C60_reduce_old_opset_refuted.

(** ReduceMax over both axes of a matrix returns its first element. *)
Theorem C60_reduce_matrix_max_refuted : exists L (x : list Z),
  create_reduce 18 18 [2; 2] [1; 1] (Some [0; 1]) false = Some L /\ zlen x = prod (run_dims [2; 2]) /\
  (forall y, reduced Znum RMax (run_dims [2; 2]) (reduced_axes (run_dims [2; 2]) [0; 1]) x y -> y = [4]) /\
  result_of (reduce_c Znum RMax (Out 0) (Out 1) (r_C L) (r_H L) (r_W L) (r_axes L) (r_noop L) (fun v => v) (red_mem x 4)) (Out 1) 1 = Some [1].
Proof.
  eexists. exists [1; 2; 3; 4]. split; [reflexivity|]. split; [reflexivity|]. split; [|reflexivity].
  intros y (ZY & G). specialize (G [0; 0] ltac:(repeat constructor; lia)). destruct y as [|v [|v' y]]; [vm_compute in ZY; discriminate| |].
  - vm_compute in G. rewrite G. reflexivity.
  - rewrite !zlen_cons in ZY. pose proof (zlen_nonneg y). vm_compute (prod _) in ZY. lia.
Qed.
Print Assumptions C60_reduce_matrix_max_refuted.

(** Before opset 13 Softmax works on all the dimensions from the axis on; the
    layer works along one: 1/2 instead of 1/4. *)
Theorem C60_softmax_old_opset_refuted : exists L (x : list R),
  create_softmax 11 [1; 2; 2] [1; 2; 2] (Some 1) = Some L /\ zlen x = prod (run_dims [1; 2; 2]) /\
  (forall y, softmaxed Rnum (run_dims [1; 2; 2]) (softmax_axes 11 (run_dims [1; 2; 2]) (Some 1)) x y ->
     el 0%R (run_dims [1; 2; 2]) y [0; 0; 0] = (1 / 4)%R) /\
  el 0%R (run_dims [1; 2; 2]) (softmax_py Rnum (s_C L) (s_H L) (s_W L) (s_axis L) x) [0; 0; 0] = (1 / 2)%R.
Proof.
  eexists. exists [0; 0; 0; 0]%R. split; [reflexivity|]. split; [reflexivity|]. split.
  - intros y (_ & G). specialize (G [0; 0; 0] ltac:(repeat constructor; lia)).
    transitivity (exp 0 / (0 + exp 0 + exp 0 + exp 0 + exp 0))%R; [exact G|]. rewrite exp_0. lra.
  - transitivity (exp 0 / (0 + exp 0 + exp 0))%R; [reflexivity|]. rewrite exp_0. lra.
Qed.
Print Assumptions C60_softmax_old_opset_refuted.
(** ... and its default axis is taken in the extended tensor: on a matrix it
    falls on a dimension of length one, and every result is one. *)
Theorem C60_softmax_default_axis_refuted : exists L (x : list R),
  create_softmax 11 [2; 2] [2; 2] None = Some L /\ zlen x = prod (run_dims [2; 2]) /\
  (forall y, softmaxed Rnum (run_dims [2; 2]) (softmax_axes 11 (run_dims [2; 2]) None) x y ->
     el 0%R (run_dims [2; 2]) y [0; 0] = (1 / 2)%R) /\
  softmax_py Rnum (s_C L) (s_H L) (s_W L) (s_axis L) x = [1; 1; 1; 1]%R.
Proof.
  eexists. exists [0; 0; 0; 0]%R. split; [reflexivity|]. split; [reflexivity|]. split.
  - intros y (_ & G). specialize (G [0; 0] ltac:(repeat constructor; lia)).
    transitivity (exp 0 / (0 + exp 0 + exp 0))%R; [exact G|]. rewrite exp_0. lra.
  - transitivity [exp 0 / (0 + exp 0); exp 0 / (0 + exp 0); exp 0 / (0 + exp 0); exp 0 / (0 + exp 0)]%R; [reflexivity|].
    rewrite exp_0. replace (1 / (0 + 1))%R with 1%R by lra. reflexivity.
Qed.
Print Assumptions C60_softmax_default_axis_refuted.
