(** * The ONNX node written for a layer computes the layer's function, second
    part: windows, padding, concatenation, element-wise operators, reductions
    and Softmax (used by C68). *)
From Coq Require Import String.
From Coq Require Import ZArith List Lia Bool Reals Lra.
Import ListNotations.
Open Scope Z_scope.
From Verif Require Import CMem Tensor Num RealInst Activation PropertiesActivation Pooling PoolingProofs PropertiesPooling Movement MovementProofs Pad Linear Reduce ReduceProofs Graph LayerKinds
  OnnxSpec OnnxOps OnnxOpsProofs OnnxReduceProofs OnnxWindowSpec OnnxLinearSpec OnnxMiscSpec PropertiesOnnxOps PropertiesOnnxReduce PropertiesOnnxWindow PropertiesOnnxPad PropertiesOnnxElementwise ExportSpec Export.
From Verif Require Broadcast BroadcastProofs.
Open Scope Z_scope.

(** ** MaxPool and AveragePool. *)
Definition pool_attrs (P : pool) : attrs :=
  [("strides"%string, AInts [p_stride P; p_stride P]); ("kernel_shape"%string, AInts [p_size P; p_size P]);
   ("pads"%string, AInts [p_top P; p_left P; p_bottom P; p_right P])].
Lemma pool_lengths (P : pool) : pool_accepts P ->
  p_OH P = onnx_length (p_IH P) (p_top P, p_bottom P) (p_size P) (p_stride P) 1 /\
  p_OW P = onnx_length (p_IW P) (p_left P, p_right P) (p_size P) (p_stride P) 1.
Proof.
  intros (_ & _ & _ & _ & _ & _ & _ & _ & _ & E1 & E2 & _). unfold onnx_length. cbn [fst snd]. rewrite E1, E2. split; f_equal; f_equal; lia.
Qed.
Lemma hold_max_pool (ninf : R) (P : pool) (x : list R) : pool_accepts P ->
  node_holds "MaxPool" (pool_attrs P) [Some (TFloat [1; p_C P; p_IH P; p_IW P] x)]
    (TFloat [1; p_C P; p_OH P; p_OW P] (tab3 (p_C P) (p_OH P) (p_OW P) (fun f i j => np_amax Rnum ninf
          (window (image 0%R P x f) (p_IH P) (p_IW P) (p_size P) (p_stride P) (p_top P) (p_left P) i j)))).
Proof.
  intros A. destruct (pool_lengths P A) as (E1 & E2).
  eapply (h_pool "MaxPool" (pool_attrs P) (p_C P) (p_IH P) (p_IW P) (p_size P) (p_size P) (p_stride P) (p_stride P) 1 1 (p_top P) (p_left P) (p_bottom P) (p_right P)); try reflexivity; try assumption.
  left. split; [reflexivity|].
  assert (PS : 0 <= p_C P /\ 0 <= p_OH P /\ 0 <= p_OW P) by (destruct A as (? & ? & ? & ? & ? & ? & ? & ? & ? & ? & ? & ? & ?); lia).
  split; [apply zlen_tab3; lia|]. intros c i j Hc Hi Hj. cbv zeta. rewrite at3_tab3 by assumption. rewrite cells_window.
  apply (np_amax_spec Rnum ninf); [apply Rnum_order|]. apply window_nonempty; assumption.
Qed.
Lemma hold_avg_pool (P : pool) (x : list R) : pool_accepts P ->
  node_holds "AveragePool" (pool_attrs P) [Some (TFloat [1; p_C P; p_IH P; p_IW P] x)]
    (TFloat [1; p_C P; p_OH P; p_OW P] (tab3 (p_C P) (p_OH P) (p_OW P) (fun f i j => np_mean Rnum
          (window (image 0%R P x f) (p_IH P) (p_IW P) (p_size P) (p_stride P) (p_top P) (p_left P) i j)))).
Proof.
  intros A. destruct (pool_lengths P A) as (E1 & E2).
  eapply (h_pool "AveragePool" (pool_attrs P) (p_C P) (p_IH P) (p_IW P) (p_size P) (p_size P) (p_stride P) (p_stride P) 1 1 (p_top P) (p_left P) (p_bottom P) (p_right P)); try reflexivity; try assumption.
  right. split; [reflexivity|]. exists 0. split; [reflexivity|].
  assert (PS : 0 <= p_C P /\ 0 <= p_OH P /\ 0 <= p_OW P) by (destruct A as (? & ? & ? & ? & ? & ? & ? & ? & ? & ? & ? & ? & ?); lia).
  split; [apply zlen_tab3; lia|]. intros c i j Hc Hi Hj. cbv zeta. rewrite at3_tab3 by assumption. rewrite cells_window. reflexivity.
Qed.

(** ** Pad. *)
Definition pad_name (m : LayerKinds.pad_mode Rnum) : string :=
  match m with LayerKinds.PadConstant _ _ => "constant" | LayerKinds.PadEdge _ => "edge" | LayerKinds.PadReflect _ => "reflect" | LayerKinds.PadWrap _ => "wrap" end.
(** The value given to the node: that of the layer in the constant mode (absent: zero). *)
Definition constant_given (m : LayerKinds.pad_mode Rnum) (value : option R) : Prop :=
  match m with LayerKinds.PadConstant _ v => v = match value with Some u => u | None => 0%R end | _ => True end.
Lemma hold_pad (m : LayerKinds.pad_mode Rnum) C H W P (x : list R) value : pads_ok C H W P -> constant_given m value ->
  node_holds "Pad" [("mode"%string, AStr (pad_name m))]
    [Some (TFloat [1; C; H; W] x); Some (TInt [8] [0; pd_front P; pd_top P; pd_left P; 0; pd_back P; pd_bottom P; pd_right P]);
     option_map (fun v => TFloat [] [v]) value; None]
    (TFloat [1; C + pd_front P + pd_back P; H + pd_top P + pd_bottom P; W + pd_left P + pd_right P] (pad_py Rnum m C H W P x)).
Proof.
  intros HP HV. destruct P as [pc ph pw qc qh qw]. cbn [pd_front pd_top pd_left pd_back pd_bottom pd_right].
  pose proof (h_pad [("mode"%string, AStr (pad_name m))]
    (match m with LayerKinds.PadConstant _ _ => PadConstant | LayerKinds.PadEdge _ => PadEdge | LayerKinds.PadReflect _ => PadReflect | LayerKinds.PadWrap _ => PadWrap end)
    value [1; C; H; W] [0; pc; ph; pw] [0; qc; qh; qw] x (pad_py Rnum m C H W (mkPads pc ph pw qc qh qw) x) [None]
    (option_map (fun v => TFloat [] [v]) value)) as G.
  assert (ED : padded_dims [1; C; H; W] [0; pc; ph; pw] [0; qc; qh; qw] = [1; C + pc + qc; H + ph + qh; W + pw + qw]).
  { unfold padded_dims. cbn [map2]. replace (0 + 1 + 0) with 1 by reflexivity. replace (pc + C + qc) with (C + pc + qc) by lia. replace (ph + H + qh) with (H + ph + qh) by lia. replace (pw + W + qw) with (W + pw + qw) by lia. reflexivity. }
  rewrite ED in G. apply G; clear G.
  - destruct m; reflexivity.
  - reflexivity.
  - reflexivity.
  - destruct value; constructor.
  - right. reflexivity.
  - destruct m; cbn [pad_py]; apply padded_tab; try exact HP; intros f i j _ _ _.
    + cbn [constant_given] in HV. rewrite HV. cbn [within pd_front pd_top pd_left]. change ((0 <=? 0) && (0 <? 1)) with true.
      cbn [andb]. rewrite andb_true_r, !andb_assoc. reflexivity.
    + destruct HP as (? & ? & ? & _). cbn [pad_fn pd_front pd_top pd_left]. rewrite !clamp_closest by assumption. reflexivity.
    + cbn [pad_fn pd_front pd_top pd_left]. rewrite !mirror_reflected. reflexivity.
    + reflexivity.
Qed.

(** ** Concat. *)
Lemma hold_concat axis OC OH OW (shapes : list (Z * Z * Z)) (xs : list (list R)) :
  1 <= axis <= 3 -> 0 < OC -> 0 < OH -> 0 < OW -> shapes <> [] -> List.length xs = List.length shapes ->
  Forall (fits axis OC OH OW) (shaped_inputs Rnum shapes xs) -> dim OC OH OW axis = total axis (shaped_inputs Rnum shapes xs) ->
  node_holds "Concat" [("axis"%string, AInt axis)]
    (map (fun o => Some (TFloat (fst o) (snd o))) (map with_dims4 (shaped_inputs Rnum shapes xs)))
    (TFloat [1; OC; OH; OW] (tab3 OC OH OW (slice_at 0%R axis 0 (shaped_inputs Rnum shapes xs)))).
Proof.
  intros Ha H1 H2 H3 NE HL HF HT. apply (h_concat _ (Z.to_nat axis)).
  - destruct shapes as [|[[c h] w] s]; [congruence|]. destruct xs; discriminate.
  - cbn. f_equal. unfold axis_pos, from_back. destruct (axis_cases axis Ha) as [->|[->| ->]]; reflexivity.
  - cbn. lia.
  - rewrite Forall_map. eapply Forall_impl; [|exact HF]. intros [[[c h] w] x] (_ & _ & _ & _ & F1 & F2 & F3). cbn [with_dims4 fst].
    destruct (axis_cases axis Ha) as [->|[->| ->]]; cbn; [rewrite F2, F3 by lia|rewrite F1, F3 by lia|rewrite F1, F2 by lia]; reflexivity.
  - etransitivity; [|symmetry; apply total_coord; exact Ha]. etransitivity; [|exact HT]. destruct (axis_cases axis Ha) as [->|[->| ->]]; reflexivity.
  - apply concatenated4; assumption.
Qed.

(** ** Element-wise operators.  [shaped4 ds s]: the tensor of dimensions [ds] is
    the (C,H,W) one of the layer. *)
Definition shaped4 (ds : list Z) (s : Broadcast.shape) : Prop :=
  (List.length ds <= 4)%nat /\ repeat 1 (4 - List.length ds) ++ ds = [1; Broadcast.sC s; Broadcast.sH s; Broadcast.sW s].
Lemma shaped4_index od O idx : shaped4 od O -> inside od idx ->
  exists f i j, repeat 0 (4 - List.length od) ++ idx = [0; f; i; j] /\ 0 <= f < Broadcast.sC O /\ 0 <= i < Broadcast.sH O /\ 0 <= j < Broadcast.sW O.
Proof.
  intros (HL & E) HI. pose proof (inside_lift (4 - List.length od) od idx HI) as G. rewrite E in G.
  destruct (inside4 _ _ _ _ G) as (f & i & j & E2 & R1). exists f, i, j. split; [exact E2|exact R1].
Qed.
Lemma el_aligned (ds : list Z) s (od idx : list Z) f i j (x : list R) : shaped4 ds s -> (List.length ds <= List.length od)%nat -> List.length idx = List.length od -> (List.length od <= 4)%nat ->
  repeat 0 (4 - List.length od) ++ idx = [0; f; i; j] -> el 0%R ds x (aligned ds idx) = Broadcast.bat Rnum (s, x) f i j.
Proof.
  intros (HL & E) HO HI H4 EI. rewrite <- (el_lift 0%R (4 - List.length ds)). rewrite <- aligned_lift by lia. rewrite HI, EI, E.
  unfold aligned. cbn [List.length Nat.sub skipn List.combine map fst snd Z.eqb Pos.eqb]. rewrite el4. reflexivity.
Qed.
Lemma hold_elementwise (op : R -> R -> R) od O (ops : list (list Z * list R)) (ss : list Broadcast.shape) (comb : list R -> R) :
  shaped4 od O -> Forall2 (fun o s => shaped4 (fst o) s) ops ss -> Forall (fun o => (List.length (fst o) <= List.length od)%nat) ops ->
  0 <= Broadcast.sC O -> 0 <= Broadcast.sH O -> 0 <= Broadcast.sW O ->
  (forall l, List.length l = List.length ops -> comb l = match l with [] => 0%R | v :: vs => fold_left op vs v end) ->
  elementwise 0%R op ops od
    (tab3 (Broadcast.sC O) (Broadcast.sH O) (Broadcast.sW O) (fun f i j =>
       comb (map (fun t => Broadcast.bat Rnum t f i j) (List.combine ss (map snd ops))))).
Proof.
  intros HO HF HL P1 P2 P3 HC. split.
  - rewrite zlen_tab3 by assumption. destruct HO as (_ & E). rewrite <- (prod_ones (4 - List.length od)), E, prod4. reflexivity.
  - intros idx HI. destruct (shaped4_index od O idx HO HI) as (f & i & j & EI & Hf & Hi & Hj).
    rewrite <- (el_lift 0%R (4 - List.length od)). destruct HO as (H4 & E). rewrite E, EI, el4, at3_tab3 by assumption.
    assert (EM : map (fun t => Broadcast.bat Rnum t f i j) (List.combine ss (map snd ops)) = map (fun o => el 0%R (fst o) (snd o) (aligned (fst o) idx)) ops).
    { clear HC. induction HF as [|o s ops ss Ho HF IH]; [reflexivity|]. inversion HL; subst. cbn [map List.combine]. rewrite IH by assumption. f_equal.
      symmetry. eapply el_aligned; eauto. apply inside_length. exact HI. }
    rewrite EM. rewrite HC by (rewrite map_length; reflexivity). reflexivity.
Qed.

(** ** Reductions. *)
Definition reduce_dims (kd C H W : Z) (axes : list Z) (noop : bool) : list Z :=
  if empty_axes axes && noop then [1; C; H; W] else reduced_shape kd (reduced_axes [1; C; H; W] axes) [1; C; H; W].
Lemma hold_reduce k kd C H W axes noop (x : list R) : 0 < C -> 0 < H -> 0 < W -> Forall (fun a => 1 <= a <= 3) axes -> zlen x = C * H * W ->
  node_holds (reduce_name k) [("keepdims"%string, AInt kd); ("noop_with_empty_axes"%string, AInt (Z.b2z noop))]
    [Some (TFloat [1; C; H; W] x); Some (TInt [zlen axes] axes)]
    (TFloat (reduce_dims kd C H W axes noop) (reduce_py Rnum k C H W axes noop x)).
Proof.
  intros HC HH HW HA Hx. set (at_ := [("keepdims"%string, AInt kd); ("noop_with_empty_axes"%string, AInt (Z.b2z noop))]).
  assert (RK : reduction_of (reduce_name k) = Some k) by (destruct k; reflexivity).
  destruct (empty_axes axes && noop) eqn:EN.
  - unfold reduce_dims, reduce_py. rewrite EN. apply andb_true_iff in EN. destruct EN as (EA & ->). destruct axes; [|discriminate].
    apply (h_reduce_noop _ at_ k [1; C; H; W] x 1); [exact RK|reflexivity|lia].
  - unfold reduce_dims. rewrite EN. set (P := reduced_axes [1; C; H; W] axes).
    apply h_reduce with (k := k); [exact RK| |reflexivity| |].
    + eapply Forall_impl; [|exact HA]. intros a Ha. cbv beta in Ha. unfold valid_axis, zlen. cbn [List.length]. lia.
    + intros ->. cbn [empty_axes andb] in EN. subst noop. reflexivity.
    + fold P. 
      assert (PR : forall j, (1 <= j <= 3)%nat -> red j P = (empty_axes axes || in_axes (Z.of_nat j) axes)%bool).
      { intros j Hj. destruct axes as [|a0 l0]; [unfold P; cbn; destruct j as [|[|[|[|j]]]]; try lia; reflexivity|].
        set (l := a0 :: l0) in *. change (empty_axes l) with false. cbn [orb].
        assert (EP : map Z.of_nat P = l).
        { unfold P. change (reduced_axes [1; C; H; W] l) with (map (axis_pos [1; C; H; W]) l). rewrite map_map.
          transitivity (map (fun a => a) l); [|apply map_id]. apply map_ext_in. intros a Ia. rewrite Forall_forall in HA. specialize (HA a Ia).
          destruct (axis_cases a HA) as [->|[->| ->]]; reflexivity. }
        rewrite <- EP, in_axes_red by lia. rewrite Nat2Z.id. reflexivity. }
      pose proof (PR 1%nat ltac:(lia)) as R1. pose proof (PR 2%nat ltac:(lia)) as R2. pose proof (PR 3%nat ltac:(lia)) as R3.
      change (Z.of_nat 1) with 1 in R1. change (Z.of_nat 2) with 2 in R2. change (Z.of_nat 3) with 3 in R3.
      set (OC := if red 1 P then 1 else C). set (OH := if red 2 P then 1 else H). set (OW := if red 3 P then 1 else W).
      assert (D : forall j n, red_dim j n axes noop = if (empty_axes axes || in_axes j axes)%bool then 1 else n).
      { intros j n. unfold red_dim. destruct (empty_axes axes), noop, (in_axes j axes); cbn in *; congruence || reflexivity. }
      assert (PY : reduce_py Rnum k C H W axes noop x = tab3 OC OH OW (fun c h w => red_value Rnum k (red_cells Rnum C H W (red 1 P) (red 2 P) (red 3 P) x c h w))).
      { unfold reduce_py. rewrite EN. cbv zeta. rewrite !D, <- R1, <- R2, <- R3. reflexivity. }
      assert (POC : 0 < OC) by (unfold OC; destruct (red 1 P); lia). assert (POH : 0 < OH) by (unfold OH; destruct (red 2 P); lia).
      assert (POW : 0 < OW) by (unfold OW; destruct (red 3 P); lia).
      assert (R0 : reduced_dims 0 P [1; C; H; W] = [1; OC; OH; OW]).
      { cbn [reduced_dims]. fold (red 0 P) (red 1 P) (red 2 P) (red 3 P). destruct (red 0 P); reflexivity. }
      rewrite PY. split; [rewrite zlen_tab3, R0, prod4 by lia; reflexivity|]. rewrite R0. intros idx HI. apply inside4 in HI.
      destruct HI as (c & h & w & -> & Hc & Hh & Hw).
      transitivity (at3 (n0 Rnum) OH OW (tab3 OC OH OW (fun c h w => red_value Rnum k (red_cells Rnum C H W (red 1 P) (red 2 P) (red 3 P) x c h w))) c h w); [apply el4|].
      rewrite at3_tab3 by assumption. f_equal. symmetry. apply (selected4 Rnum); auto.
      * intros R. unfold OC in Hc. rewrite R in Hc. exact Hc.
      * intros R. unfold OH in Hh. rewrite R in Hh. exact Hh.
      * intros R. unfold OW in Hw. rewrite R in Hw. exact Hw.
Qed.

(** ** Softmax. *)
Lemma hold_softmax ds C H W axis (x : list R) : (1 <= List.length ds)%nat -> shaped4 ds (Broadcast.mkShape C H W) -> 0 < C -> 0 < H -> 0 < W ->
  (if one_dimension C H W then W = C * H * W else axis = 3) -> zlen x = C * H * W ->
  node_holds "Softmax" [] [Some (TFloat ds x)] (TFloat ds (softmax_py Rnum C H W axis x)).
Proof.
  intros HL (HL4 & E) HC HH HW HA Hx. cbn [Broadcast.sC Broadcast.sH Broadcast.sW] in E.
  apply (h_softmax [] ds (List.length ds - 1)).
  - cbn. f_equal. unfold axis_pos, from_back, zlen. cbn [Z.ltb Z.compare]. lia.
  - lia.
  - apply (softmaxed_lift Rnum (4 - List.length ds)). rewrite E. cbn [map]. replace (4 - List.length ds + (List.length ds - 1))%nat with 3%nat by lia.
    destruct (one_dimension C H W) eqn:One.
    + assert (C1 : C * H = 1) by nia. assert (C = 1 /\ H = 1) as (-> & ->) by nia. 
      unfold softmax_py. rewrite One. cbv zeta. split; [rewrite !zlen_map, prod4; exact Hx|]. intros idx HI.
      destruct (inside4 _ _ _ _ HI) as (c & h & w & EI & Hc & Hh & Hw). 
      rewrite <- (map_map (el (n0 Rnum) [1; 1; 1; W] x) (nexp Rnum)).
      rewrite selected_all.
      * rewrite map_map. rewrite EI, !el4. unfold at3. assert (RG : 0 <= idx3 1 W c h w < zlen x) by (unfold idx3; nia).
        rewrite (nthZ_map _ (n0 Rnum)) by exact RG. reflexivity.
      * repeat constructor; lia.
      * rewrite prod4. exact Hx.
      * exact HI.
      * intros q Hq Hn. cbn in Hq. destruct q as [|[|[|[|q]]]]; try reflexivity; [|lia]. exfalso. apply Hn. left. reflexivity.
    + subst axis. apply (softmaxed4 Rnum C H W 3); auto; lia.
Qed.

(** ** The element-wise nodes. *)
Definition two_operands (k : Broadcast.bkind) : Prop := k = Broadcast.BSub \/ k = Broadcast.BMul \/ k = Broadcast.BDiv.
Lemma hold_two k od so da (xa : list R) sa db xb sb : two_operands k -> shaped4 od so -> shaped4 da sa -> shaped4 db sb ->
  0 <= Broadcast.sC so -> 0 <= Broadcast.sH so -> 0 <= Broadcast.sW so -> broadcast_shape [da; db] od ->
  node_holds (three (broadcast_name k)) [] [Some (TFloat da xa); Some (TFloat db xb)]
    (TFloat od (tab3 (Broadcast.sC so) (Broadcast.sH so) (Broadcast.sW so) (fun f i j =>
       Broadcast.bop Rnum k (Broadcast.bat Rnum (sa, xa) f i j) (Broadcast.bat Rnum (sb, xb) f i j)))).
Proof.
  intros HK SO SA SB P1 P2 P3 BS. apply h_binary with (f := Broadcast.bop Rnum k); [destruct HK as [->|[->| ->]]; reflexivity|exact BS|].
  destruct BS as (BL & _).
  pose proof (hold_elementwise (Broadcast.bop Rnum k) od so [(da, xa); (db, xb)] [sa; sb] (fun l => match l with [] => 0%R | v :: vs => fold_left (Broadcast.bop Rnum k) vs v end)) as G.
  cbn [map List.combine fst snd fold_left] in G. apply G; try assumption.
  - constructor; [exact SA|]. constructor; [exact SB|constructor].
  - constructor; [|constructor; [|constructor]]; cbn [fst]; apply BL; [left|right; left]; reflexivity.
  - reflexivity.
Qed.
Lemma np_maximum_Rmax (a b : R) : np_maximum Rnum a b = Rmax a b.
Proof. unfold np_maximum. cbn [nlt Rnum]. unfold Rltb, Rmax. destruct (Rlt_dec a b), (Rle_dec a b); lra. Qed.
Lemma np_minimum_Rmin (a b : R) : np_minimum Rnum a b = Rmin a b.
Proof. unfold np_minimum. cbn [nlt Rnum]. unfold Rltb, Rmin. destruct (Rlt_dec b a), (Rle_dec a b); lra. Qed.
Lemma fold_left_ext {A B} (f g : A -> B -> A) l : (forall a b, f a b = g a b) -> forall a, fold_left f l a = fold_left g l a.
Proof. intros H. induction l as [|b l IH]; intros a; [reflexivity|]. cbn [fold_left]. rewrite H. apply IH. Qed.
Lemma hold_many k od so (ops : list (list Z * list R)) ss : k = Broadcast.BMax \/ k = Broadcast.BMin -> ops <> [] -> shaped4 od so ->
  Forall2 (fun o s => shaped4 (fst o) s) ops ss -> 0 <= Broadcast.sC so -> 0 <= Broadcast.sH so -> 0 <= Broadcast.sW so ->
  broadcast_shape (map fst ops) od ->
  node_holds (three (broadcast_name k)) [] (map (fun o => Some (TFloat (fst o) (snd o))) ops)
    (TFloat od (tab3 (Broadcast.sC so) (Broadcast.sH so) (Broadcast.sW so) (fun f i j =>
       BroadcastProofs.combine Rnum k (map (fun t => Broadcast.bat Rnum t f i j) (List.combine ss (map snd ops))) None))).
Proof.
  intros HK NE SO HS P1 P2 P3 BS.
  apply h_variadic with (f := match k with Broadcast.BMax => Rmax | _ => Rmin end); [destruct HK as [->| ->]; reflexivity|exact NE|exact BS|].
  apply (hold_elementwise _ od so ops ss (fun l => BroadcastProofs.combine Rnum k l None)); try assumption.
  - destruct BS as (BL & _). apply Forall_forall. intros o Ho. apply BL. apply in_map. exact Ho.
  - intros l _. destruct HK as [-> | ->]; cbn [BroadcastProofs.combine Broadcast.bop]; (destruct l as [|v vs]; [reflexivity|]); apply fold_left_ext; intros; [apply np_maximum_Rmax|apply np_minimum_Rmin].
Qed.
