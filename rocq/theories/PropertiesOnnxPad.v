(** * Property C63: an imported ONNX Pad node has its ONNX meaning
    (OnnxMiscSpec.v). *)
From Coq Require Import ZArith List Lia Bool.
Import ListNotations.
Open Scope Z_scope.
From Verif Require Import CMem Tensor Num NumInst Pad PropertiesPad PropertiesMovement
  OnnxSpec OnnxOps OnnxOpsProofs OnnxMiscSpec OnnxMisc.

Lemma shape4 raw C H W : one_sample raw -> run_dims raw = [1; C; H; W] -> get_shape raw = [1; C; H; W] /\ 0 < C /\ 0 < H /\ 0 < W.
Proof.
  intros (HL & HP & _) EI. split.
  - rewrite get_shape_eq by assumption. pose proof (run_dims_length raw) as L. rewrite EI in *. cbn in L. rewrite <- L. reflexivity.
  - assert (PI : Forall (fun n => 0 < n) [1; C; H; W]) by (rewrite <- EI; apply run_dims_pos; assumption).
    inversion PI as [|? ? _ PI1]; inversion PI1 as [|? ? HC PI2]; inversion PI2 as [|? ? HH PI3]; inversion PI3 as [|? ? HW _]; subst. auto.
Qed.
Lemma clamp_closest n k : 0 < n -> clamp n k = closest n k.
Proof. intros Hn. unfold clamp, closest. destruct (Z.ltb_spec k 0); [lia|]. destruct (Z.ltb_spec k n); lia. Qed.
Lemma mirror_reflected n k : mirror n k = reflected n k.
Proof. unfold mirror, reflected. replace (2 * (n - 1)) with (2 * n - 2) by lia. reflexivity. Qed.

(** The modes other than constant need: reflect, at least two channels, rows and
    columns; wrap, less padding before the data than there is data. *)
Definition mode_ok (mode : pad_mode) (ds before : list Z) : Prop :=
  match mode with
  | PadConstant | PadEdge => True
  | PadWrap => Forall2 (fun n p => p < n) ds before
  | PadReflect => Forall (fun n => 2 <= n) (tl ds)
  end.

Lemma padded_tab {V} (d : V) mode value C H W before_c before_h before_w after_c after_h after_w (x : list V) g :
  let P := mkPads before_c before_h before_w after_c after_h after_w in
  pads_ok C H W P ->
  (forall f i j, 0 <= f < C + before_c + after_c -> 0 <= i < H + before_h + after_h -> 0 <= j < W + before_w + after_w ->
     g f i j = match mode with
       | PadConstant => if within [1; C; H; W] [0; f - before_c; i - before_h; j - before_w]
                        then at3 d H W x (f - before_c) (i - before_h) (j - before_w) else value
       | PadEdge => at3 d H W x (closest C (f - before_c)) (closest H (i - before_h)) (closest W (j - before_w))
       | PadWrap => at3 d H W x (repeated C (f - before_c)) (repeated H (i - before_h)) (repeated W (j - before_w))
       | PadReflect => at3 d H W x (reflected C (f - before_c)) (reflected H (i - before_h)) (reflected W (j - before_w))
       end) ->
  padded d mode value [1; C; H; W] [0; before_c; before_h; before_w] [0; after_c; after_h; after_w] x
    (tab3 (C + before_c + after_c) (H + before_h + after_h) (W + before_w + after_w) g).
Proof.
  intros P (HC & HH & HW & P1 & P2 & P3 & P4 & P5 & P6) E. cbn in P1, P2, P3, P4, P5, P6. unfold padded, padded_dims. cbn [map2].
  replace (0 + 1 + 0) with 1 by reflexivity.
  replace (before_c + C + after_c) with (C + before_c + after_c) by lia.
  replace (before_h + H + after_h) with (H + before_h + after_h) by lia.
  replace (before_w + W + after_w) with (W + before_w + after_w) by lia.
  split; [rewrite zlen_tab3 by lia; rewrite prod4; ring|].
  intros idx HI. destruct (inside4 _ _ _ _ HI) as (f & i & j & -> & Hf & Hi & Hj).
  cbv zeta. rewrite el4, at3_tab3 by lia. rewrite E by assumption. cbn [map2]. change (0 - 0) with 0.
  destruct mode; rewrite ?el4; try reflexivity.
Qed.

(** ** C63.  Pads of the four axes of one image (none on the batch axis), not
    negative, in one of the four modes, with the constant given (even in the
    other modes) and no axes (or all of them, in order): the import succeeds and
    the generated code computes the ONNX padding. *)
Theorem C63_pad : forall (V : Type) (d : V) mode raw_in raw_out C H W pc ph pw qc qh qw value axes x,
  one_sample raw_in -> one_sample raw_out -> run_dims raw_in = [1; C; H; W] ->
  let before := [0; pc; ph; pw] in let after := [0; qc; qh; qw] in
  run_dims raw_out = padded_dims [1; C; H; W] before after ->
  Forall (fun p => 0 <= p) (before ++ after) -> mode_ok mode [1; C; H; W] before ->
  axes = Missing \/ axes = Given [0; 1; 2; 3] -> zlen x = C * H * W ->
  exists l, create_pad (Some mode) raw_in raw_out (Given (before ++ after)) (Given value) axes = Some l /\
    forall src out, src <> Temp -> out <> Temp ->
    exists y, padded d mode value [1; C; H; W] before after x y /\
      layer_ok (pad_layer_c l src out (fun v => v)) [(src, x)] out (zlen y) (zlen y) y.
Proof.
  intros V d mode raw_in raw_out C H W pc ph pw qc qh qw value axes x HS HSO EI before after EO FP MO HA Hx.
  destruct (shape4 raw_in C H W HS EI) as (G1 & HC & HH & HW).
  unfold padded_dims, before, after in EO. cbn [map2] in EO. change (0 + 1 + 0) with 1 in EO.
  destruct (shape4 raw_out _ _ _ HSO EO) as (G2 & OC & OH & OW).
  unfold before, after in FP. cbn [app] in FP.
  repeat match goal with F : Forall _ (_ :: _) |- _ => inversion F; clear F; subst end.
  set (P := mkPads pc ph pw qc qh qw).
  assert (PO : pads_ok C H W P) by (unfold pads_ok, P; cbn; lia).
  exists (mkPadLayer mode C H W P value). split.
  - unfold create_pad. rewrite G1, G2.
    assert (EA : exists ax, pad_axes (zlen [1; C; H; W]) axes = Some ax /\ forallb (fun a => (0 <=? a) && (a <? 4)) ax = true).
    { destruct HA as [-> | ->]; [exists []|exists [0; 1; 2; 3]]; split; reflexivity. }
    destruct EA as (ax & -> & EA). cbn [bind dims3]. unfold before, after. cbn [app].
    change (rdl [0; pc; ph; pw; 0; qc; qh; qw] 1) with (Some pc). change (rdl [0; pc; ph; pw; 0; qc; qh; qw] 2) with (Some ph).
    change (rdl [0; pc; ph; pw; 0; qc; qh; qw] 3) with (Some pw). change (rdl [0; pc; ph; pw; 0; qc; qh; qw] 5) with (Some qc).
    change (rdl [0; pc; ph; pw; 0; qc; qh; qw] 6) with (Some qh). change (rdl [0; pc; ph; pw; 0; qc; qh; qw] 7) with (Some qw).
    cbn [bind]. rewrite find_size4, EA by assumption.
    replace ((pc + C + qc) * (ph + H + qh) * (pw + W + qw)) with ((C + pc + qc) * (H + ph + qh) * (W + pw + qw)) by ring.
    rewrite Z.eqb_refl. reflexivity.
  - intros src out Hs Ho.
    assert (ID : idempotent (fun v : V => v)) by (intros v; reflexivity).
    assert (L : forall f, 0 <= f -> forall g : Z -> Z -> Z -> V, zlen (tab3 (C + pc + qc) (H + ph + qh) (W + pw + qw) g) = pad_size C H W P).
    { intros _ _ g. rewrite zlen_tab3 by lia. reflexivity. }
    specialize (L 0 ltac:(lia)).
    unfold pad_layer_c. cbn [pl_mode pl_C pl_H pl_W pl_pads pl_value]. destruct mode.
    + exists (np_pad_constant d value C H W P x). split.
      * apply padded_tab; [exact PO|]. intros f i j _ _ _. cbn [within pd_front pd_top pd_left P]. change ((0 <=? 0) && (0 <? 1)) with true.
        cbn [andb]. rewrite andb_true_r, !andb_assoc. reflexivity.
      * unfold np_pad_constant. rewrite L. pose proof (C22_constant_pad V d src out C H W P value (fun v => v) x Ho Hs PO Hx) as G.
        rewrite map_id in G. exact G.
    + exists (np_pad d (clamp C) (clamp H) (clamp W) C H W P x). split.
      * apply padded_tab; [exact PO|]. intros f i j _ _ _. rewrite !clamp_closest by assumption. reflexivity.
      * unfold np_pad. rewrite L. pose proof (C22_edge_pad V d src out C H W P (fun v => v) x Ho Hs PO ID Hx) as G.
        rewrite map_id in G. exact G.
    + exists (np_pad d (fun k => k mod C) (fun k => k mod H) (fun k => k mod W) C H W P x). split.
      * apply padded_tab; [exact PO|]. intros f i j _ _ _. reflexivity.
      * cbn [mode_ok] in MO. unfold before in MO.
        repeat match goal with F : Forall2 _ (_ :: _) _ |- _ => inversion F; clear F; subst end.
        unfold np_pad. rewrite L. pose proof (C22_wrap_pad_partial V d src out C H W P (fun v => v) x Ho Hs PO ID Hx) as G.
        rewrite map_id in G. apply G; assumption.
    + exists (np_pad d (mirror C) (mirror H) (mirror W) C H W P x). split.
      * apply padded_tab; [exact PO|]. intros f i j _ _ _. rewrite !mirror_reflected. reflexivity.
      * cbn [mode_ok tl] in MO.
        repeat match goal with F : Forall _ (_ :: _) |- _ => inversion F; clear F; subst end.
        unfold np_pad. rewrite L. pose proof (C22_reflect_pad V d src out C H W P (fun v => v) x (mirror C) (mirror H) (mirror W) Ho Hs PO ID Hx) as G.
        rewrite map_id in G. apply G; try assumption; apply mirror_mirrored; assumption.
Qed.
Print Assumptions C63_pad.

(** One row above and two columns after a 2x2x3 image, mirrored. *)
Example C63_example :
  create_pad (Some PadReflect) [0; 2; 2; 3] [0; 2; 3; 5] (Given [0; 0; 1; 0; 0; 0; 0; 2]) (Given 0) Missing
  = Some (mkPadLayer PadReflect 2 2 3 (mkPads 0 1 0 0 0 2) 0) /\
  mode_ok PadReflect [1; 2; 2; 3] [0; 0; 1; 0] /\
  padded_dims [1; 2; 2; 3] [0; 0; 1; 0] [0; 0; 0; 2] = [1; 2; 3; 5] /\
  (forall y, padded 0 PadReflect 0 [1; 2; 2; 3] [0; 0; 1; 0] [0; 0; 0; 2] (ramp 12) y ->
     el 0 [1; 2; 3; 5] y [0; 1; 0; 4] = el 0 [1; 2; 2; 3] (ramp 12) [0; 1; 1; 0]).
Proof.
  split; [reflexivity|]. split; [repeat constructor; lia|]. split; [reflexivity|].
  intros y (_ & G). rewrite G by (repeat constructor; lia). reflexivity.
Qed.

(** The mode attribute is optional in ONNX ("constant" by default): required
    here. *)
Theorem C63_default_mode_refuted : forall (V : Type) raw_in raw_out ps (value : node_input V) axes,
  create_pad None raw_in raw_out ps value axes = None.
Proof. intros. unfold create_pad. destruct value; try reflexivity. destruct (pad_axes _ _); reflexivity. Qed.
Print Assumptions C63_default_mode_refuted.
(** The constant is optional in ONNX (0 by default): required here. *)
Theorem C63_default_value_refuted : forall (V : Type) mode raw_in raw_out ps (value : node_input V) axes,
  value = Missing \/ value = NotInitialiser -> create_pad mode raw_in raw_out ps value axes = None.
Proof. intros V mode raw_in raw_out ps value axes [-> | ->]; reflexivity. Qed.
Print Assumptions C63_default_value_refuted.

(** Tensors of rank less than four, whatever the pads (two per axis), are
    rejected; so is a list of axes with pads for these axes only. *)
Theorem C63_rank_refuted : forall (V : Type) mode raw_in raw_out ps (value : node_input V) axes,
  zlen ps < 8 -> create_pad mode raw_in raw_out (Given ps) value axes = None.
Proof.
  intros V mode raw_in raw_out ps value axes HL. unfold create_pad. destruct value; try reflexivity.
  destruct (pad_axes _ _); [|reflexivity]. cbn [bind]. destruct mode; [|reflexivity]. cbn [bind].
  destruct (dims3 _) as [[[C H] W]|]; [|reflexivity]. cbn [bind].
  rewrite (rdl_none ps 7) by lia.
  destruct (rdl ps 1); [|reflexivity]. destruct (rdl ps 5); [|reflexivity]. destruct (rdl ps 2); [|reflexivity].
  destruct (rdl ps 6); [|reflexivity]. destruct (rdl ps 3); reflexivity.
Qed.
Print Assumptions C63_rank_refuted.
(** Negative axes are rejected: -1 becomes 5. *)
Theorem C63_negative_axes_refuted : forall (V : Type) mode raw_in raw_out ps (value : node_input V) axes a,
  one_sample raw_in -> In a axes -> a < 0 -> create_pad mode raw_in raw_out ps value (Given axes) = None.
Proof.
  intros V mode raw_in raw_out ps value axes a HS HI Ha. unfold create_pad. destruct value; try reflexivity.
  cbn [pad_axes bind]. destruct mode; [|reflexivity]. cbn [bind]. destruct ps; try reflexivity.
  destruct (dims3 _) as [[[C H] W]|]; [|reflexivity]. cbn [bind].
  destruct (rdl a1 1); [|reflexivity]. destruct (rdl a1 5); [|reflexivity]. destruct (rdl a1 2); [|reflexivity].
  destruct (rdl a1 6); [|reflexivity]. destruct (rdl a1 3); [|reflexivity]. destruct (rdl a1 7); [|reflexivity]. cbn [bind].
  replace (forallb _ (map _ axes)) with false; [rewrite andb_false_r; reflexivity|]. symmetry.
  destruct (forallb _ (map _ axes)) eqn:E; [|reflexivity]. rewrite forallb_forall in E.
  specialize (E (zlen (get_shape raw_in) - a)).
  rewrite andb_true_iff, Z.leb_le, Z.ltb_lt in E.
  destruct HS as (HL & HP & _). rewrite get_shape_eq in E by assumption.
  assert (ZL : zlen (repeat 1 (4 - length raw_in) ++ run_dims raw_in) = 4).
  { unfold zlen in *. rewrite app_length, repeat_length, run_dims_length. lia. }
  rewrite ZL in E. enough (0 <= 4 - a < 4) by lia. apply E. apply in_map_iff. exists a. split; [|exact HI].
  destruct (Z.ltb_spec a 0); [reflexivity|lia].
Qed.
Print Assumptions C63_negative_axes_refuted.
(** Axes in another order: accepted, and the pads go to the wrong axes.  Two
    pixels in a column; one pixel above them is asked for. *)
Theorem C63_axes_order_refuted : exists axes half_before half_after l (x y : list Z),
  pads_of_axes [1; 1; 2; 2] axes half_before = [0; 0; 1; 0] /\ pads_of_axes [1; 1; 2; 2] axes half_after = [0; 0; 0; 0] /\
  create_pad (Some PadConstant) [1; 1; 2; 2] [1; 1; 3; 2] (Given (half_before ++ half_after)) (Given 9) (Given axes) = Some l /\
  result_of (pad_layer_c l (Out 0) (Out 1) (fun v => v) (mem_of [(Out 0, x); (Out 1, repeat 0 6); (Temp, repeat 0 6)])) (Out 1) 6 = Some y /\
  zlen x = 4 /\ ~ padded 0 PadConstant 9 [1; 1; 2; 2] [0; 0; 1; 0] [0; 0; 0; 0] x y.
Proof.
  exists [0; 1; 3; 2], [0; 0; 0; 1], [0; 0; 0; 0]. eexists. exists [1; 2; 3; 4]. eexists.
  split; [reflexivity|]. split; [reflexivity|]. split; [reflexivity|]. split; [vm_compute; reflexivity|]. split; [reflexivity|].
  intros (_ & G). specialize (G [0; 0; 0; 1] ltac:(repeat constructor; lia)). vm_compute in G. discriminate.
Qed.
Print Assumptions C63_axes_order_refuted.
