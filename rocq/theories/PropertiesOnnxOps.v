(** * Property C56: ONNX data-movement nodes of every rank are imported with
    their ONNX meaning.  The operators are specified in OnnxSpec.v; a tensor of
    rank r < 4 is run as one of rank 4. *)
From Coq Require Import ZArith List Lia Bool.
Import ListNotations.
Open Scope Z_scope.
From Verif Require Import CMem Tensor Num Movement MovementProofs PropertiesMovement OnnxSpec OnnxOps OnnxOpsProofs.

(** Gather with an axis attribute and one-dimensional indices, negative ones
    included: the import succeeds and the generated code computes it. *)
Theorem C56_gather : forall (V : Type) (d : V) raw_in raw_out a inds x,
  one_sample raw_in -> Forall (fun n => 0 <= n) raw_out ->
  let ds := run_dims raw_in in
  valid_axis ds a ->
  let p := axis_pos ds a in
  (zlen ds = 4 -> p <> 0%nat) ->
  run_dims raw_out = set_at p (zlen inds) ds ->
  Forall (fun i => - coord p ds <= i < coord p ds) inds ->
  zlen x = prod ds ->
  exists L, create_gather raw_in raw_out (Some a) inds = Some L /\
    forall src out act, src <> Temp -> out <> Temp ->
    exists y, gathered d ds p inds x y /\
      layer_ok (gather_c src out (g_axis L) (g_C L) (g_H L) (g_W L) (g_OC L) (g_OH L) (g_OW L) (g_inds L) act)
        [(src, x)] out (zlen y) (zlen y) (map act y).
Proof.
  intros V d raw_in raw_out a inds x HS HO ds HV p HB ER HI Hx.
  destruct (sample_shape raw_in HS) as (C & H & W & HC & HH & HW & E1 & E2).
  destruct (import_axis_eq raw_in a HS HV) as (EA & LP). fold ds in EA, LP, E2. fold p in EA, LP.
  set (n := (4 - length raw_in)%nat) in *. set (k := Z.of_nat (n + p)) in *.
  assert (LD : length ds = length raw_in) by apply run_dims_length.
  destruct HS as (HL & HP & H4). unfold zlen in HL.
  assert (Hk : 1 <= k <= 3).
  { unfold k, n. unfold zlen in HB. rewrite LD in HB. destruct (Nat.eq_dec (length raw_in) 4) as [E|E]; [|lia].
    rewrite E in *. specialize (HB eq_refl). lia. }
  assert (TK : Z.to_nat k = (n + p)%nat) by (unfold k; lia).
  assert (CO : coord p ds = coord (Z.to_nat k) [1; C; H; W]) by (rewrite TK, <- E2, coord_app; reflexivity).
  set (s := coord (Z.to_nat k) [1; C; H; W]) in *.
  assert (LO : length raw_out = length raw_in).
  { rewrite <- (run_dims_length raw_out), ER, set_at_length. exact LD. }
  set (inds' := map (adjust_index s) inds).
  assert (LI : zlen inds' = zlen inds) by apply zlen_map.
  set (OC := if k =? 1 then zlen inds else C). set (OH := if k =? 2 then zlen inds else H). set (OW := if k =? 3 then zlen inds else W).
  assert (EO : get_shape raw_out = [1; OC; OH; OW]).
  { rewrite get_shape_eq by (try assumption; unfold zlen; rewrite LO; exact HL). rewrite ER, LO. fold n.
    rewrite <- set_at_app, E2, <- TK. unfold OC, OH, OW. destruct (axis_cases k Hk) as [->|[->| ->]]; reflexivity. }
  assert (PI : 0 < zlen inds).
  { assert (In (zlen inds) (run_dims raw_out)).
    { rewrite ER. apply set_at_in. rewrite LD. exact LP. }
    pose proof (run_dims_pos raw_out HO) as P. rewrite Forall_forall in P. apply P. assumption. }
  assert (POC : 0 < OC) by (unfold OC; destruct (k =? 1); lia).
  assert (POH : 0 < OH) by (unfold OH; destruct (k =? 2); lia).
  assert (POW : 0 < OW) by (unfold OW; destruct (k =? 3); lia).
  assert (RI : Forall (fun i => 0 <= i < s) inds').
  { unfold inds'. rewrite Forall_map. eapply Forall_impl; [|exact HI]. cbv beta. intros i Hi. rewrite CO in Hi. apply adjust_range. exact Hi. }
  exists (mkGatherLayer k C H W OC OH OW inds'). split.
  - unfold create_gather, gather_axis. rewrite EA, E1, EO, rdl_coord by exact Hk. fold s. cbn [bind dims3].
    rewrite find_size4, Z.eqb_refl by assumption. destruct (Z.leb_spec 1 k); [|lia]. destruct (Z.leb_spec k 3); [|lia]. cbn [andb].
    fold inds'. replace (forallb _ inds') with true; [reflexivity|]. symmetry. apply forallb_forall. intros i Hi.
    rewrite Forall_forall in RI. specialize (RI i Hi). destruct (Z.leb_spec 0 i); [|lia]. destruct (Z.ltb_spec i s); [reflexivity|lia].
  - intros src out act Hs Ho. cbn [g_axis g_C g_H g_W g_OC g_OH g_OW g_inds].
    pose proof (C25_gather V d src out k C H W OC OH OW inds' act x Ho Hs Hk ltac:(lia) ltac:(lia) ltac:(lia)) as G.
    rewrite LI in G. specialize (G ltac:(rewrite Hx, <- (prod_ones n ds), E2; apply prod4) eq_refl eq_refl eq_refl).
    assert (PR : forall q, 0 <= q < zlen inds -> 0 <= nthZ 0 inds' q < dim C H W k).
    { intros q Hq. rewrite Forall_forall in RI. replace (dim C H W k) with s; [apply RI|].
      - destruct (rdl_some inds' q ltac:(lia)) as (v & Ev). unfold nthZ. rewrite Ev. unfold rdl in Ev. destruct (q <? 0); [discriminate|].
        eapply nth_error_In; exact Ev.
      - unfold s, dim. destruct (axis_cases k Hk) as [->|[->| ->]]; reflexivity. }
    specialize (G PR).
    eexists. split; [|].
    + apply (gathered_lift d n). rewrite E2, <- TK. apply gathered4; auto. fold s. rewrite <- CO. exact HI.
    + fold s. fold inds'. rewrite LI. fold OC OH OW. rewrite zlen_tab3 by lia. exact G.
Qed.
Print Assumptions C56_gather.

(** GatherElements with an axis attribute; the indices have the dimensions of
    the data except along the axis. *)
Theorem C56_gather_elements : forall (V : Type) (d : V) raw_in raw_out a idims inds x,
  one_sample raw_in -> Forall (fun n => 0 <= n) raw_out ->
  let ds := run_dims raw_in in
  valid_axis ds a ->
  let p := axis_pos ds a in
  (zlen ds = 4 -> p <> 0%nat) ->
  idims = set_at p (coord p idims) ds -> run_dims raw_out = idims -> zlen inds = prod idims ->
  Forall (fun i => - coord p ds <= i < coord p ds) inds ->
  zlen x = prod ds ->
  exists L, create_gather_elements raw_in raw_out (Some a) idims inds = Some L /\
    forall src out act, src <> Temp -> out <> Temp ->
    exists y, gathered_elements d ds idims p inds x y /\
      layer_ok (gather_elements_c src out (g_axis L) (g_H L) (g_W L) (g_OC L) (g_OH L) (g_OW L) (g_inds L) act)
        [(src, x)] out (zlen y) (zlen y) (map act y).
Proof.
  intros V d raw_in raw_out a idims inds x HS HO ds HV p HB EI EO ZI HI Hx.
  destruct (axis_setup raw_in a HS HV HB) as (C & H & W & HC & HH & HW & E1 & E2 & k & EA & Hk & TK & LP & CO).
  fold ds in E2, TK, LP, CO. fold p in TK, LP, CO.
  set (s := coord (Z.to_nat k) [1; C; H; W]) in *. set (m := coord p idims) in *.
  destruct HS as (HL & HP & H4).
  destruct (shape_set raw_in raw_out p m C H W k HL HO Hk E2 TK LP ltac:(rewrite EO; exact EI)) as (Hm & LO & GO).
  set (OC := if k =? 1 then m else C) in *. set (OH := if k =? 2 then m else H) in *. set (OW := if k =? 3 then m else W) in *.
  set (inds' := map (adjust_index s) inds).
  assert (LI : zlen inds' = zlen inds) by apply zlen_map.
  assert (POC : 0 < OC) by (unfold OC; destruct (k =? 1); lia).
  assert (POH : 0 < OH) by (unfold OH; destruct (k =? 2); lia).
  assert (POW : 0 < OW) by (unfold OW; destruct (k =? 3); lia).
  assert (RI : Forall (fun i => 0 <= i < s) inds').
  { unfold inds'. rewrite Forall_map. eapply Forall_impl; [|exact HI]. cbv beta. intros i Hi. rewrite CO in Hi. apply adjust_range. exact Hi. }
  assert (EI4 : repeat 1 (4 - length raw_in) ++ idims = [1; OC; OH; OW]).
  { rewrite <- GO, get_shape_eq by (try assumption; unfold zlen in *; lia). rewrite EO, LO. reflexivity. }
  assert (LE : length idims = length raw_in) by (rewrite <- EO, run_dims_length; exact LO).
  assert (ZI4 : zlen inds = OC * OH * OW).
  { rewrite ZI, <- (prod_ones (4 - length raw_in)), EI4. apply prod4. }
  exists (mkGatherLayer k C H W OC OH OW inds'). split.
  - unfold create_gather_elements, gather_axis. rewrite EA, E1, GO, rdl_coord by exact Hk. fold s. cbn [bind dims3].
    rewrite find_size4, Z.eqb_refl by assumption. destruct (Z.leb_spec 1 k); [|lia]. destruct (Z.leb_spec k 3); [|lia]. cbn [andb].
    fold inds'. replace (forallb _ inds') with true; cbn [andb].
    + change (length [1; OC; OH; OW]) with 4%nat. rewrite LE, EI4. cbn [tl].
      destruct (list_eq_dec Z.eq_dec [OC; OH; OW] [OC; OH; OW]) as [_|NE]; [|congruence].
      unfold OC, OH, OW. destruct (axis_cases k Hk) as [->|[->| ->]]; cbn [Z.eqb Pos.eqb orb andb]; rewrite ?Z.eqb_refl; reflexivity.
    + symmetry. apply forallb_forall. intros i Hi.
      rewrite Forall_forall in RI. specialize (RI i Hi). destruct (Z.leb_spec 0 i); [|lia]. destruct (Z.ltb_spec i s); [reflexivity|lia].
  - intros src out act Hs Ho. cbn [g_axis g_C g_H g_W g_OC g_OH g_OW g_inds].
    pose proof (C25_gather_elements V d src out k C H W OC OH OW inds' act x Ho Hs Hk ltac:(lia) ltac:(lia) ltac:(lia) ltac:(lia)) as G.
    specialize (G ltac:(rewrite Hx, <- (prod_ones (4 - length raw_in) ds), E2; apply prod4)).
    specialize (G ltac:(intros; unfold OC; destruct (Z.eqb_spec k 1); [lia|reflexivity])).
    specialize (G ltac:(intros; unfold OH; destruct (Z.eqb_spec k 2); [lia|reflexivity])).
    specialize (G ltac:(intros; unfold OW; destruct (Z.eqb_spec k 3); [lia|reflexivity])).
    assert (PR : forall q, 0 <= q < zlen inds' -> 0 <= nthZ 0 inds' q < dim C H W k).
    { intros q Hq. rewrite Forall_forall in RI. replace (dim C H W k) with s; [apply RI, in_nthZ; exact Hq|].
      unfold s, dim. destruct (axis_cases k Hk) as [->|[->| ->]]; reflexivity. }
    specialize (G PR).
    eexists. split.
    + apply (gathered_elements_lift d (4 - length raw_in)). rewrite E2, EI4, <- TK. apply gathered_elements4; auto. fold s. rewrite <- CO. exact HI.
    + fold OC OH OW. fold s. fold inds'. rewrite zlen_tab3 by lia. exact G.
Qed.
Print Assumptions C56_gather_elements.

(** Concat: any number of operands of the same rank. *)
Definition with_dims4 {V} (s : Z * Z * Z * list V) : list Z * list V := let '(c, h, w, x) := s in ([1; c; h; w], x).
Lemma total_coord {V} k (xs : list (@shaped V)) : 1 <= k <= 3 ->
  fold_right Z.add 0 (map (fun o => coord (Z.to_nat k) (fst o)) (map with_dims4 xs)) = total k xs.
Proof.
  intros Hk. induction xs as [|[[[c h] w] x] xs IH]; [reflexivity|]. cbn [map fold_right].
  change (total k (@cons (@shaped V) (c, h, w, x) xs)) with (dim c h w k + total k xs). rewrite IH.
  destruct (axis_cases k Hk) as [->|[->| ->]]; reflexivity.
Qed.
Lemma concatenated4 {V} (d : V) k OC OH OW (xs : list (@shaped V)) : 1 <= k <= 3 -> 0 < OC -> 0 < OH -> 0 < OW ->
  Forall (fits k OC OH OW) xs -> dim OC OH OW k = total k xs ->
  concatenated d (Z.to_nat k) (map with_dims4 xs) [1; OC; OH; OW] (tab3 OC OH OW (slice_at d k 0 xs)).
Proof.
  intros Hk HC HH HW HF HT. split; [rewrite zlen_tab3, prod4 by lia; reflexivity|].
  intros before ds x after idx EO HI.
  apply map_eq_app in EO. destruct EO as (b & r & -> & <- & EO). apply map_eq_cons in EO. destruct EO as (s & af & -> & Es & <-).
  destruct s as [[[c h] w] x']. cbn [with_dims4] in Es. inversion Es; subst ds x'. clear Es.
  apply inside4 in HI. destruct HI as (f & i & j & -> & Hf & Hi & Hj).
  rewrite total_coord by exact Hk. rewrite el4.
  apply Forall_app in HF. destruct HF as (FB & FA). inversion FA as [|? ? FS FR]; subst.
  pose proof (total_nonneg k OC OH OW b FB) as NB. pose proof (total_nonneg k OC OH OW af FR) as NA.
  cbn [fits] in FS. destruct FS as (P1 & P2 & P3 & _ & Q1 & Q2 & Q3).
  assert (TT : total k (b ++ (c, h, w, x) :: af) = total k b + (dim c h w k + total k af)).
  { clear. induction b as [|[[[c0 h0] w0] x0] b IH]; [reflexivity|]. cbn [app].
    change (dim c0 h0 w0 k + total k (b ++ (c, h, w, x) :: af) = dim c0 h0 w0 k + total k b + (dim c h w k + total k af)). rewrite IH. lia. }
  rewrite TT in HT.
  assert (DB : Forall (fun s => let '(c, h, w, _) := s in 0 <= dim c h w k) b).
  { eapply Forall_impl; [|exact FB]. intros [[[c0 h0] w0] x0] (A1 & A2 & A3 & _). unfold dim. destruct (k =? 1), (k =? 2); lia. }
  pose proof (C24_slice V d k b af c h w x) as SL.
  destruct (axis_cases k Hk) as [->|[->| ->]]; unfold dim in HT, SL; cbn [Z.eqb Pos.eqb] in HT, SL;
    change (Z.to_nat 1) with 1%nat; change (Z.to_nat 2) with 2%nat; change (Z.to_nat 3) with 3%nat; cbn [coord nth set_at]; rewrite el4;
    (rewrite at3_tab3 by (rewrite <- ?Q1, <- ?Q2, <- ?Q3 by lia; lia)).
  - etransitivity; [apply (SL (total 1 b + f) i j 0 ltac:(lia) DB); unfold indices; cbn [Z.eqb Pos.eqb]; lia|]. cbn [Z.eqb Pos.eqb]. f_equal. lia.
  - etransitivity; [apply (SL f (total 2 b + i) j 0 ltac:(lia) DB); unfold indices; cbn [Z.eqb Pos.eqb]; lia|]. cbn [Z.eqb Pos.eqb]. f_equal. lia.
  - etransitivity; [apply (SL f i (total 3 b + j) 0 ltac:(lia) DB); unfold indices; cbn [Z.eqb Pos.eqb]; lia|]. cbn [Z.eqb Pos.eqb]. f_equal. lia.
Qed.

Theorem C56_concat : forall (V : Type) (d : V) (ins : list (bname * (list Z * list V))) raw_out a,
  let raw := fun i => fst (snd i) in let data := fun i => snd (snd i) in
  let ods := run_dims raw_out in let p := axis_pos ods a in
  ins <> [] -> one_sample raw_out -> valid_axis ods a -> (zlen ods = 4 -> p <> 0%nat) ->
  Forall (fun i => fst i <> Temp /\ Forall (fun n => 0 <= n) (raw i) /\
                   run_dims (raw i) = set_at p (coord p (run_dims (raw i))) ods /\
                   zlen (data i) = prod (run_dims (raw i))) ins ->
  coord p ods = fold_right Z.add 0 (map (fun i => coord p (run_dims (raw i))) ins) ->
  exists L, create_concat (map raw ins) raw_out a = Some L /\
    forall out act, out <> Temp ->
    exists y, concatenated d p (map (fun i => (run_dims (raw i), data i)) ins) ods y /\
      layer_ok (concat_c out (cc_axis L) (cc_OC L) (cc_OH L) (cc_OW L)
                  (map (fun is => let '(c, h, w) := snd is in mkOperand (fst (fst is)) c h w) (combine ins (cc_shapes L))) act)
        (map (fun i => (fst i, data i)) ins) out (zlen y) (zlen y) (map act y).
Proof.
  intros V d ins raw_out a raw data ods p NE HS HV HB HF HT.
  destruct (axis_setup raw_out a HS HV HB) as (OC & OH & OW & HC & HH & HW & E1 & E2 & k & EA & Hk & TK & LP & CO).
  fold ods in E2, TK, LP, CO. fold p in TK, LP, CO.
  destruct HS as (HL & HP & H4). set (n := (4 - length raw_out)%nat) in *.
  set (m := fun i => coord p (run_dims (raw i))).
  set (sh := fun i => (if k =? 1 then m i else OC, if k =? 2 then m i else OH, if k =? 3 then m i else OW)).
  assert (SH : forall i, In i ins -> 0 < m i /\ length (raw i) = length raw_out /\
     get_shape (raw i) = (let '(c, h, w) := sh i in [1; c; h; w])).
  { intros i Hi. rewrite Forall_forall in HF. destruct (HF i Hi) as (_ & F2 & F3 & _).
    destruct (shape_set raw_out (raw i) p (m i) OC OH OW k HL F2 Hk E2 TK LP F3) as (A1 & A2 & A3).
    split; [exact A1|]. split; [exact A2|]. exact A3. }
  assert (AS : all_some (map (fun r => dims3 (get_shape r)) (map raw ins)) = Some (map sh ins)).
  { clear - SH. induction ins as [|i ins IH]; [reflexivity|]. cbn [map all_some].
    destruct (SH i (or_introl eq_refl)) as (_ & _ & ->). rewrite IH by (intros; apply SH; right; assumption).
    destruct (sh i) as [[c h] w]. reflexivity. }
  assert (MT : pick3 k (OC, OH, OW) = fold_right Z.add 0 (map (pick3 k) (map sh ins))).
  { rewrite map_map. rewrite (map_ext _ m).
    - transitivity (coord p ods); [|exact HT]. rewrite CO. unfold pick3. destruct (axis_cases k Hk) as [->|[->| ->]]; reflexivity.
    - intros i. unfold sh, pick3. destruct (axis_cases k Hk) as [->|[->| ->]]; reflexivity. }
  exists (mkConcatLayer k OC OH OW (map sh ins)). split.
  - unfold create_concat. destruct ins as [|i0 ins']; [congruence|]. cbn [map] in AS |- *.
    assert (KE : (if a <? 0 then zlen (get_shape raw_out) + a else zlen (get_shape (raw i0)) + a - zlen (raw i0)) = k).
    { destruct (SH i0 (or_introl eq_refl)) as (_ & S2 & S3). rewrite S3. rewrite <- EA. unfold import_axis. rewrite E1.
      destruct (sh i0) as [[c h] w]. unfold zlen in *. rewrite S2. reflexivity. }
    cbv zeta. rewrite KE, E1, AS. change (sh i0 :: map sh ins') with (map sh (i0 :: ins')). cbn [bind dims3]. rewrite find_size4, Z.eqb_refl, <- MT, Z.eqb_refl by assumption.
    destruct (Z.leb_spec 1 k); [|lia]. destruct (Z.leb_spec k 3); [|lia]. cbn [andb]. rewrite andb_true_r.
    replace (forallb _ _) with true; [reflexivity|]. symmetry. rewrite forallb_forall. intros s Hs. apply in_map_iff in Hs as (i & <- & _).
    unfold sh, pick3. destruct (axis_cases k Hk) as [->|[->| ->]]; cbn [Z.eqb Pos.eqb orb andb]; rewrite ?Z.eqb_refl; reflexivity.
  - intros out act Ho. cbn [cc_axis cc_OC cc_OH cc_OW cc_shapes].
    set (ops := map (fun i => (let '(c, h, w) := sh i in mkOperand (fst i) c h w, data i)) ins).
    assert (EOP : map (fun is : bname * (list Z * list V) * (Z * Z * Z) => let '(c, h, w) := snd is in mkOperand (fst (fst is)) c h w) (combine ins (map sh ins)) = map fst ops).
    { unfold ops. rewrite map_map. clear. induction ins as [|i ins IH]; [reflexivity|]. cbn [map combine fst snd]. rewrite IH. reflexivity. }
    rewrite EOP.
    set (xs := map (fun ox => shape_of (fst ox) (snd ox)) ops).
    assert (EX : xs = map (fun i => let '(c, h, w) := sh i in (c, h, w, data i)) ins).
    { unfold xs, ops. rewrite map_map. apply map_ext. intros i. unfold sh. reflexivity. }
    assert (FX : Forall (fits k OC OH OW) xs).
    { rewrite EX, Forall_map. rewrite Forall_forall in *. intros i Hi. destruct (HF i Hi) as (_ & F2 & F3 & F4).
      destruct (SH i Hi) as (S1 & S2 & S3).
      assert (ZL : zlen (data i) = let '(c, h, w) := sh i in c * h * w).
      { rewrite F4, <- (prod_ones n). unfold n. rewrite <- S2, <- get_shape_eq by (try assumption; unfold zlen in *; lia). rewrite S3.
        destruct (sh i) as [[c h] w]. apply prod4. }
      unfold sh in *. cbn [fits]. cbv iota beta in ZL.
      destruct (axis_cases k Hk) as [->|[->| ->]]; cbn [Z.eqb Pos.eqb] in *; repeat split; try lia; exact ZL. }
    assert (TX : dim OC OH OW k = total k xs).
    { replace (dim OC OH OW k) with (pick3 k (OC, OH, OW)) by (unfold dim, pick3; reflexivity). rewrite MT, EX, map_map.
      clear. induction ins as [|i ins IH]; [reflexivity|]. cbn [map fold_right]. rewrite IH. unfold sh, pick3. reflexivity. }
    exists (tab3 OC OH OW (slice_at d k 0 xs)). split.
    + apply (concatenated_lift d n). rewrite E2, <- TK.
      replace (map _ (map (fun i => (run_dims (raw i), data i)) ins)) with (map with_dims4 xs).
      * apply concatenated4; assumption.
      * rewrite EX, !map_map. apply map_ext_in. intros i Hi. cbn [fst snd]. destruct (SH i Hi) as (S1 & S2 & S3).
        rewrite Forall_forall in HF. destruct (HF i Hi) as (_ & F2 & _).
        unfold n. rewrite <- S2, <- get_shape_eq by (try assumption; unfold zlen in *; lia). rewrite S3. destruct (sh i) as [[c h] w]. reflexivity.
    + rewrite zlen_tab3 by lia.
      replace (map (fun i => (fst i, data i)) ins) with (map (fun ox : operand * list V => (op_src (fst ox), snd ox)) ops).
      * apply C24_concatenate; try assumption; try lia. unfold ops. rewrite Forall_map. eapply Forall_impl; [|exact HF].
        intros i (F1 & _). cbn [fst]. unfold sh. exact F1.
      * unfold ops. rewrite map_map. apply map_ext. intros i. unfold sh. reflexivity.
Qed.
Print Assumptions C56_concat.

(** Tile. *)
Theorem C56_tile : forall (V : Type) (d : V) raw_in raw_out reps x,
  one_sample raw_in -> Forall (fun n => 0 <= n) raw_out ->
  let ds := run_dims raw_in in
  zlen reps = zlen ds -> Forall (fun r => 0 < r) reps -> (zlen ds = 4 -> coord 0 reps = 1) ->
  run_dims raw_out = map2 Z.mul reps ds -> zlen x = prod ds ->
  exists L, create_tile raw_in raw_out reps = Some L /\
    forall src out act, src <> Temp -> out <> Temp ->
    exists y, tiled d ds reps x y /\
      layer_ok (tile_c src out (t_C L) (t_H L) (t_W L) (t_rc L) (t_rh L) (t_rw L) act) [(src, x)] out (zlen y) (zlen y) (map act y).
Proof.
  intros V d raw_in raw_out reps x HS HO ds LR PR H1 ER Hx.
  destruct (sample_shape raw_in HS) as (C & H & W & HC & HH & HW & E1 & E2). fold ds in E2.
  destruct HS as (HL & HP & H4). set (n := (4 - length raw_in)%nat) in *.
  assert (LD : length ds = length raw_in) by apply run_dims_length. unfold zlen in HL, LR, H1.
  assert (ES : exists rc rh rw, 0 < rc /\ 0 < rh /\ 0 < rw /\ repeat 1 n ++ reps = [1; rc; rh; rw]).
  { unfold n. destruct reps as [|a [|b [|c [|e [|g r]]]]]; cbn [length] in LR; try lia;
      repeat match goal with H : Forall _ (_ :: _) |- _ => inversion H; subst; clear H end.
    - exists 1, 1, a. replace (length raw_in) with 1%nat by lia. repeat split; try lia; reflexivity.
    - exists 1, a, b. replace (length raw_in) with 2%nat by lia. repeat split; try lia; reflexivity.
    - exists a, b, c. replace (length raw_in) with 3%nat by lia. repeat split; try lia; reflexivity.
    - exists b, c, e. replace (length raw_in) with 4%nat by lia. specialize (H1 ltac:(lia)). cbn in H1. subst a. repeat split; try lia; reflexivity. }
  destruct ES as (rc & rh & rw & Prc & Prh & Prw & ES).
  assert (EO : get_shape raw_out = [1; rc * C; rh * H; rw * W]).
  { assert (LO : length raw_out = length raw_in).
    { rewrite <- (run_dims_length raw_out), ER. rewrite <- LD. clear - LR. revert reps LR. induction ds as [|q l IH]; intros [|r reps] LR; cbn [length map2] in *; try lia.
      rewrite IH by lia. reflexivity. }
    rewrite get_shape_eq by (try assumption; unfold zlen; lia). rewrite LO, ER. fold n.
    change 1 with (1 * 1) at 1. rewrite <- map2_app, E2, ES. reflexivity. }
  exists (mkTileLayer C H W rc rh rw). split.
  - unfold create_tile. rewrite E1, EO. replace (4 - length reps)%nat with n by (unfold n; lia). rewrite ES. cbn [dims3 bind].
    rewrite find_size4, Z.eqb_refl by nia. cbn [length Nat.eqb andb forallb].
    destruct (Z.ltb_spec 0 rc); [|lia]. destruct (Z.ltb_spec 0 rh); [|lia]. destruct (Z.ltb_spec 0 rw); [|lia]. reflexivity.
  - intros src out act Hs Ho. cbn [t_C t_H t_W t_rc t_rh t_rw].
    exists (tab3 (rc * C) (rh * H) (rw * W) (fun f i j => at3 d H W x (f mod C) (i mod H) (j mod W))). split.
    + apply (tiled_lift d n). rewrite E2, ES. split.
      * rewrite zlen_tab3 by nia. cbn [map2]. change (1 * 1) with 1. rewrite prod4. reflexivity.
      * intros idx HI. cbn [map2] in *. change (1 * 1) with 1 in *. apply inside4 in HI. destruct HI as (f & i & j & -> & Hf & Hi & Hj).
        cbn [map2]. change (0 mod 1) with 0. rewrite !el4, at3_tab3 by assumption. reflexivity.
    + rewrite zlen_tab3 by nia. apply C26_tile; auto.
      assert (E : prod ds = C * H * W) by (rewrite <- (prod_ones n ds), E2; apply prod4). rewrite <- E. exact Hx.
Qed.
Print Assumptions C56_tile.

(** Transpose of a rank-4 tensor that keeps the batch axis first. *)
Theorem C56_transpose : forall (V : Type) (d : V) raw_in raw_out p1 p2 p3 x,
  one_sample raw_in -> zlen raw_in = 4 -> one_sample raw_out ->
  let ds := run_dims raw_in in let perm := [0; p1; p2; p3] in
  is_perm p1 p2 p3 -> run_dims raw_out = permuted (map Z.to_nat perm) ds -> zlen x = prod ds ->
  exists L, create_transpose raw_in raw_out perm = Some L /\
    forall src out act, src <> Temp -> out <> Temp ->
    exists y, transposed_nd d ds (map Z.to_nat perm) x y /\
      layer_ok (transpose_c src out (tr_C L) (tr_H L) (tr_W L) (tr_p1 L) (tr_p2 L) (tr_p3 L) act) [(src, x)] out (zlen y) (zlen y) (map act y).
Proof.
  intros V d raw_in raw_out p1 p2 p3 x HS L4 HSo ds perm HPm ER Hx.
  destruct (sample_shape raw_in HS) as (C & H & W & HC & HH & HW & E1 & E2). fold ds in E2.
  destruct HS as (HL & HP & H4). unfold zlen in L4. assert (L4' : length raw_in = 4%nat) by lia. rewrite L4' in E2. cbn [Nat.sub repeat app] in E2.
  assert (EO : get_shape raw_out = permuted (map Z.to_nat perm) [1; C; H; W]).
  { destruct HSo as (HLo & HPo & _). rewrite get_shape_eq by assumption. rewrite ER, E2.
    rewrite <- (run_dims_length raw_out), ER. unfold permuted. rewrite !map_length. reflexivity. }
  assert (CS : (p1 = 1 /\ p2 = 2 /\ p3 = 3) \/ (p1 = 1 /\ p2 = 3 /\ p3 = 2) \/ (p1 = 2 /\ p2 = 1 /\ p3 = 3) \/
               (p1 = 2 /\ p2 = 3 /\ p3 = 1) \/ (p1 = 3 /\ p2 = 1 /\ p3 = 2) \/ (p1 = 3 /\ p2 = 2 /\ p3 = 1)) by (unfold is_perm in HPm; lia).
  assert (EX : prod ds = C * H * W) by (rewrite E2; apply prod4).
  assert (ZY : zlen (np_transpose d C H W p1 p2 p3 x) = C * H * W).
  { unfold np_transpose, dim. destruct CS as [(-> & -> & ->)|[(-> & -> & ->)|[(-> & -> & ->)|[(-> & -> & ->)|[(-> & -> & ->)|(-> & -> & ->)]]]]];
      cbn [Z.eqb Pos.eqb]; rewrite zlen_tab3 by lia; ring. }
  exists (mkTransposeLayer C H W p1 p2 p3). split.
  - unfold create_transpose. rewrite E1, EO. unfold perm.
    destruct CS as [(-> & -> & ->)|[(-> & -> & ->)|[(-> & -> & ->)|[(-> & -> & ->)|[(-> & -> & ->)|(-> & -> & ->)]]]]];
      unfold permuted; cbn [dims3 bind map];
      change (Z.to_nat 0) with 0%nat; change (Z.to_nat 1) with 1%nat; change (Z.to_nat 2) with 2%nat; change (Z.to_nat 3) with 3%nat; cbn [coord nth dims3 bind];
      change (rdl [1; C; H; W] 1) with (Some C); change (rdl [1; C; H; W] 2) with (Some H); change (rdl [1; C; H; W] 3) with (Some W); cbn [bind];
      rewrite find_size4, Z.eqb_refl by assumption; reflexivity.
  - intros src out act Hs Ho. cbn [tr_C tr_H tr_W tr_p1 tr_p2 tr_p3].
    exists (np_transpose d C H W p1 p2 p3 x). split.
    + rewrite E2. split.
      * rewrite ZY. unfold perm, permuted.
        destruct CS as [(-> & -> & ->)|[(-> & -> & ->)|[(-> & -> & ->)|[(-> & -> & ->)|[(-> & -> & ->)|(-> & -> & ->)]]]]];
          change (Z.to_nat 0) with 0%nat; change (Z.to_nat 1) with 1%nat; change (Z.to_nat 2) with 2%nat; change (Z.to_nat 3) with 3%nat;
          cbn [map coord nth]; change (Z.to_nat 0) with 0%nat; change (Z.to_nat 1) with 1%nat; change (Z.to_nat 2) with 2%nat; change (Z.to_nat 3) with 3%nat; cbn [nth]; rewrite prod4; ring.
      * intros idx HI. apply inside4 in HI. destruct HI as (f & i & j & -> & Hf & Hi & Hj). rewrite el4. unfold perm, permuted, np_transpose, dim, inv_index.
        destruct CS as [(-> & -> & ->)|[(-> & -> & ->)|[(-> & -> & ->)|[(-> & -> & ->)|[(-> & -> & ->)|(-> & -> & ->)]]]]];
          change (Z.to_nat 0) with 0%nat; change (Z.to_nat 1) with 1%nat; change (Z.to_nat 2) with 2%nat; change (Z.to_nat 3) with 3%nat;
          cbn [map coord nth Z.eqb Pos.eqb]; rewrite el4, at3_tab3 by assumption; reflexivity.
    + rewrite ZY. apply C23_transpose; auto; lia.
Qed.
Print Assumptions C56_transpose.

(** Non-vacuity: a rank-2 Gather with negative axis and index, a rank-3 Concat
    of three operands, a rank-2 Tile and a Transpose with a symbolic batch. *)
Example C56_gather_example :
  one_sample [2; 3] /\ valid_axis (run_dims [2; 3]) (-1) /\ axis_pos [2; 3] (-1) = 1%nat /\
  create_gather [2; 3] [2; 2] (Some (-1)) [-1; 0] = Some (mkGatherLayer 3 1 2 3 1 2 2 [2; 0]) /\
  result_of (gather_c (Out 0) (Out 1) 3 1 2 3 1 2 2 [2; 0] (fun v => v)
     (mem_of [(Out 0, ramp 6); (Out 1, repeat 7 4); (Temp, repeat 0 4)])) (Out 1) 4 = Some [2; 0; 5; 3].
Proof. unfold one_sample, valid_axis. cbn. repeat split; try lia. repeat constructor; lia. Qed.
Example C56_gather_elements_example :
  create_gather_elements [2; 3] [1; 3] (Some 0) [1; 3] [-1; 0; 1] = Some (mkGatherLayer 2 1 2 3 1 1 3 [1; 0; 1]) /\
  result_of (gather_elements_c (Out 0) (Out 1) 2 2 3 1 1 3 [1; 0; 1] (fun v => v)
     (mem_of [(Out 0, ramp 6); (Out 1, repeat 7 3); (Temp, repeat 0 3)])) (Out 1) 3 = Some [3; 1; 5].
Proof. repeat split. Qed.
Example C56_concat_example :
  create_concat [[2; 1; 2]; [2; 2; 2]] [2; 3; 2] (-2) = Some (mkConcatLayer 2 2 3 2 [(2, 1, 2); (2, 2, 2)]).
Proof. reflexivity. Qed.
Example C56_tile_example : create_tile [2; 3] [2; 6] [1; 2] = Some (mkTileLayer 1 2 3 1 1 2).
Proof. reflexivity. Qed.
Example C56_transpose_example :
  one_sample [0; 2; 3; 4] /\ create_transpose [0; 2; 3; 4] [0; 4; 2; 3] [0; 3; 1; 2] = Some (mkTransposeLayer 2 3 4 3 1 2).
Proof. split; [|reflexivity]. unfold one_sample. cbn. repeat split; try lia. repeat constructor; lia. Qed.

(** ONNX gives Gather the axis 0 when the attribute is absent; the importer
    raises on every such node, whatever the ranks. *)
Theorem C56_gather_default_axis_refuted : forall raw_in raw_out inds,
  create_gather raw_in raw_out None inds = None.
Proof.
  intros. unfold create_gather. cbn [gather_axis]. destruct (rdl (get_shape raw_in) 0); [|reflexivity]. cbn [bind].
  destruct (dims3 (get_shape raw_in)) as [[[C H] W]|]; [|reflexivity]. cbn [bind].
  destruct (dims3 (get_shape raw_out)) as [[[OC OH] OW]|]; [|reflexivity]. cbn [bind]. rewrite andb_false_r. reflexivity.
Qed.
Print Assumptions C56_gather_default_axis_refuted.
Theorem C56_gather_elements_default_axis_refuted : forall raw_in raw_out idims inds,
  create_gather_elements raw_in raw_out None idims inds = None.
Proof.
  intros. unfold create_gather_elements. cbn [gather_axis]. destruct (rdl (get_shape raw_in) 0); [|reflexivity]. cbn [bind].
  destruct (dims3 (get_shape raw_in)) as [[[C H] W]|]; [|reflexivity]. cbn [bind].
  destruct (dims3 (get_shape raw_out)) as [[[OC OH] OW]|]; [|reflexivity]. cbn [bind]. rewrite andb_false_r. reflexivity.
Qed.
Print Assumptions C56_gather_elements_default_axis_refuted.

(** A scalar index (the usual way to take one row) is accepted, and the
    generated code fills only part of the result. *)
Theorem C56_gather_scalar_refuted : exists L (y : list Z),
  create_gather [1; 2; 3; 2] [1; 2; 2] (Some 2) [1] = Some L /\
  gathered_scalar 0 [1; 2; 3; 2] 2 1 (ramp 12) y /\
  result_of (gather_c (Out 0) (Out 1) (g_axis L) (g_C L) (g_H L) (g_W L) (g_OC L) (g_OH L) (g_OW L) (g_inds L) (fun v => v)
     (mem_of [(Out 0, ramp 12); (Out 1, repeat 7 4); (Temp, repeat (-1) 4)])) (Out 1) 4 <> Some y.
Proof.
  eexists. exists [2; 3; 8; 9]. split; [reflexivity|]. split.
  - split; [reflexivity|]. intros idx HI. cbn [firstn skipn app] in HI.
    assert (G : exists c w, idx = [0; c; w] /\ (c = 0 \/ c = 1) /\ (w = 0 \/ w = 1)).
    { unfold inside in HI. repeat match goal with H : Forall2 _ (_ :: _) _ |- _ => inversion H; subst; clear H end.
      match goal with H : Forall2 _ [] _ |- _ => inversion H; subst; clear H end.
      match goal with H : 0 <= ?y < 1 |- _ => assert (y = 0) by lia; subst y end. do 2 eexists. split; [reflexivity|]. lia. }
    destruct G as (c & w & -> & [-> | ->] & [-> | ->]); reflexivity.
  - vm_compute. congruence.
Qed.
Print Assumptions C56_gather_scalar_refuted.

(** Transpose of tensors of rank below four is always rejected. *)
Theorem C56_transpose_low_rank_refuted : forall raw_in raw_out perm, zlen perm < 4 -> create_transpose raw_in raw_out perm = None.
Proof.
  intros raw_in raw_out perm HL. unfold create_transpose. destruct (dims3 (get_shape raw_in)); [|reflexivity]. cbn [bind].
  destruct perm as [|a [|b [|c [|e r]]]]; try reflexivity. unfold zlen in HL. cbn [length] in HL. lia.
Qed.
Print Assumptions C56_transpose_low_rank_refuted.
