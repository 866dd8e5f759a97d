(** * The other layers of the Keras importer (used by C69). *)
From Coq Require Import String.
From Coq Require Import ZArith List Lia Bool Reals Lra QArith.
Import ListNotations.
From Verif Require Import CMem Tensor Num RealInst Padding Conv ConvProofs ConvHWCProofs Pooling PoolingProofs Pad Reduce Movement MovementProofs Linear Graph LayerKinds Net Import PropertiesImport
  PropertiesActivation PropertiesPooling PropertiesOnnxWindow ExportOps.
From Verif Require Activation Broadcast BroadcastProofs OnnxWindowSpec.
From Verif Require Import KerasSpec Keras KerasProofs KerasOps.
Open Scope list_scope.
Open Scope Z_scope.

(** ** Pooling. *)
Lemma pool_facts p H W C ph s x : sized (mkT [H; W; C] x) -> windowed p H ph s 1 = true -> windowed p W ph s 1 = true ->
  let OH := window_count p H ph s 1 in let OW := window_count p W ph s 1 in
  let P := mkPool C H W OH OW ph s (pad_total p H ph s 1 / 2) (pad_total p W ph s 1 / 2) (pad_total p H ph s 1 - pad_total p H ph s 1 / 2) (pad_total p W ph s 1 - pad_total p W ph s 1 / 2) in
  import_pool ph s p [H; W; C] [OH; OW; C] = Some P /\ pool_accepts P /\ 1 <= OH /\ 1 <= OW /\
  window_before p H ph s 1 = p_top P /\ window_before p W ph s 1 = p_left P.
Proof.
  intros SZ E2 E3 OH OW P. destruct (sized_image _ _ _ _ SZ) as (HH & HW & HC & HX).
  destruct (window_facts p H ph s 1 HH E2 ltac:(auto)) as (K1 & K2 & K3 & K4 & K5 & K6 & K7).
  destruct (window_facts p W ph s 1 HW E3 ltac:(auto)) as (L1 & L2 & L3 & L4 & L5 & L6 & L7).
  fold OH in K4, K7. fold OW in L4, L7. unfold conv_output_size in K7, L7.
  assert (E1 : OH = (H + (pad_total p H ph s 1 - pad_total p H ph s 1 / 2) + pad_total p H ph s 1 / 2 - ph) / s + 1).
  { rewrite K7. f_equal. f_equal. lia. }
  assert (F1 : OW = (W + pad_total p W ph s 1 / 2 + (pad_total p W ph s 1 - pad_total p W ph s 1 / 2) - ph) / s + 1).
  { rewrite L7. f_equal. f_equal. lia. }
  split; [|].
  { unfold import_pool. cbn [chw moved bind]. rewrite padding_facts. rewrite <- E1, <- F1, !Z.eqb_refl.
    replace (size_of [OH; OW; C]) with (C * OH * OW) by (cbn; lia). rewrite Z.eqb_refl. reflexivity. }
  split; [|split; [exact K4|]; split; [exact L4|]; split; [exact K5|exact L5]].
  assert (B : forall v, 0 <= v < ph -> 0 <= v / 2 < ph /\ 0 <= v - v / 2 < ph).
  { intros v Hv. pose proof (Z.div_mod v 2 ltac:(lia)). pose proof (Z.mod_pos_bound v 2 ltac:(lia)). lia. }
  destruct (B _ K6), (B _ L6). unfold pool_accepts. cbn [P p_C p_IH p_IW p_size p_stride p_top p_left p_bottom p_right p_OH p_OW].
  repeat (split; [first [exact E1|exact F1|lia]|]). lia.
Qed.
Lemma pool_value_sized f p H W C ph s x : 0 < C -> 1 <= window_count p H ph s 1 -> 1 <= window_count p W ph s 1 ->
  zlen (pool_value channels_last ph ph s s p f (mkT [H; W; C] x)) = window_count p H ph s 1 * window_count p W ph s 1 * C.
Proof. intros. unfold pool_value. cbn [dims image_dims of_px]. apply zlen_tab3; lia. Qed.

Lemma max_good impl ninf q fmt ph pw sh sw p ts t : let o := MaxPooling2D fmt ph pw sh sw p in
  Forall sized ts -> importable o (map dims ts) -> apply o ts = Some t -> good impl ninf q o ts t.
Proof.
  intros o SZ (-> & -> & -> & H & W & C & EI) HA. destruct (one_tensor _ _ EI) as (x & ->). clear EI.
  inversion SZ as [|? ? S1 _]; subst. destruct (sized_image _ _ _ _ S1) as (HH & HW & HC & HX). clear SZ.
  unfold apply in HA. destruct (out_dims o (map dims [mkT [H; W; C] x])) as [out|] eqn:EO; [|discriminate]. cbn [bind] in HA. injection HA as <-.
  cbn [out_dims map dims o] in EO. destruct (out_window_some _ _ _ _ _ _ _ _ _ _ _ EO) as (H' & W' & C' & E1 & E2 & E3 & ->). cbn [image_dims] in E1. injection E1 as <- <- <-.
  cbn [image]. subst o. destruct (pool_facts p H W C pw sw x S1 E2 E3) as (I1 & PA & O1 & O2 & B1 & B2). cbv zeta in *.
  set (OH := window_count p H pw sw 1) in *. set (OW := window_count p W pw sw 1) in *.
  assert (SO : size_of [OH; OW; C] = OH * OW * C) by (cbn; lia).
  pose proof (pool_value_sized maximum p H W C pw sw x HC O1 O2) as ZV.
  split; [apply sized_image_intro; try lia; cbn [result]; exact ZV|]. cbn [dims map import_layer]. rewrite I1. cbn [bind].
  eexists. split; [reflexivity|]. cbn [lkind out_size out_channels p_C p_OH p_OW]. rewrite SO.
  split; [lia|]. split; [reflexivity|]. split; [exact I|]. cbn [unsoft result]. split; [exact ZV|]. split.
  - cbn [map lay dims vals]. unfold lay. cbn [dims vals]. erewrite max_pool_meaning; [|exact PA|reflexivity..].
    unfold pool_value. cbn [dims vals image_dims of_px p_OH p_OW p_size p_stride]. fold OH OW. rewrite B1, B2. reflexivity.
  - intros _ G. split; [exact linear_ok|]. cbn [lkind p_C p_IH p_IW]. split; [f_equal; cbn; lia|]. unfold pool_supported. cbn [generable map dims] in G. cbn [p_C p_OH p_OW p_top p_left] in *. lia.
Qed.
Lemma avg_good impl ninf q fmt ph pw sh sw p ts t : let o := AveragePooling2D fmt ph pw sh sw p in
  Forall sized ts -> importable o (map dims ts) -> apply o ts = Some t -> good impl ninf q o ts t.
Proof.
  intros o SZ (-> & -> & -> & H & W & C & EI) HA. destruct (one_tensor _ _ EI) as (x & ->). clear EI.
  inversion SZ as [|? ? S1 _]; subst. destruct (sized_image _ _ _ _ S1) as (HH & HW & HC & HX). clear SZ.
  unfold apply in HA. destruct (out_dims o (map dims [mkT [H; W; C] x])) as [out|] eqn:EO; [|discriminate]. cbn [bind] in HA. injection HA as <-.
  cbn [out_dims map dims o] in EO. destruct (out_window_some _ _ _ _ _ _ _ _ _ _ _ EO) as (H' & W' & C' & E1 & E2 & E3 & ->). cbn [image_dims] in E1. injection E1 as <- <- <-.
  cbn [image]. subst o. destruct (pool_facts p H W C pw sw x S1 E2 E3) as (I1 & PA & O1 & O2 & B1 & B2). cbv zeta in *.
  set (OH := window_count p H pw sw 1) in *. set (OW := window_count p W pw sw 1) in *.
  assert (SO : size_of [OH; OW; C] = OH * OW * C) by (cbn; lia).
  pose proof (pool_value_sized average p H W C pw sw x HC O1 O2) as ZV.
  split; [apply sized_image_intro; try lia; cbn [result]; exact ZV|]. cbn [dims map import_layer]. rewrite I1. cbn [bind].
  eexists. split; [reflexivity|]. cbn [lkind out_size out_channels p_C p_OH p_OW]. rewrite SO.
  split; [lia|]. split; [reflexivity|]. split; [exact I|]. cbn [unsoft result]. split; [exact ZV|]. split.
  - cbn [map lay dims vals]. unfold lay. cbn [dims vals]. erewrite avg_pool_meaning; [|exact PA|reflexivity..].
    unfold pool_value. cbn [dims vals image_dims of_px p_OH p_OW p_size p_stride]. fold OH OW. rewrite B1, B2. reflexivity.
  - intros _ G. split; [exact linear_ok|]. cbn [lkind p_C p_IH p_IW]. split; [f_equal; cbn; lia|]. unfold pool_supported. cbn [generable map dims] in G. cbn [p_C p_OH p_OW p_top p_left] in *. lia.
Qed.

(** ** Flatten, zero padding, batch normalisation. *)
Lemma flatten_good impl ninf q fmt ts t : let o := Flatten fmt in
  Forall sized ts -> importable o (map dims ts) -> apply o ts = Some t -> good impl ninf q o ts t.
Proof.
  intros o SZ (-> & H & W & C & EI) HA. destruct (one_tensor _ _ EI) as (x & ->). clear EI.
  inversion SZ as [|? ? S1 _]; subst. destruct (sized_image _ _ _ _ S1) as (HH & HW & HC & HX). clear SZ.
  unfold apply in HA. cbn [out_dims map dims bind o] in HA. injection HA as <-. subst o.
  assert (S0 : size_of [H; W; C] = C * H * W) by (cbn; lia). change (H * (W * (C * 1))) with (size_of [H; W; C]). rewrite S0. set (n := C * H * W) in *.
  assert (SO : size_of [n] = n) by (cbn; lia).
  assert (ZV : zlen (flattened_value channels_last (mkT [H; W; C] x)) = n).
  { unfold flattened_value. cbn [dims image_dims]. rewrite zlen_tab3 by lia. subst n. lia. }
  split; [split; cbn [dims vals]; [repeat constructor; subst n; nia|rewrite SO; exact ZV]|].
  cbn [dims map import_layer]. unfold import_flatten. cbn [chw moved bind]. rewrite SO. change (C * H * W) with n. rewrite Z.eqb_refl.
  eexists. split; [reflexivity|]. cbn [lkind out_size out_channels]. split; [reflexivity|]. split; [reflexivity|]. split; [exists channels_last; reflexivity|].
  cbn [unsoft result]. split; [exact ZV|]. split.
  - unfold lay. cbn [dims vals]. rewrite flatten_meaning by lia. reflexivity.
  - intros _ _. split; [exact linear_ok|]. cbn [lkind]. split; [f_equal; exact S0|]. lia.
Qed.
Lemma pad_good impl ninf q fmt pt pb pl pr ts t : let o := ZeroPadding2D fmt pt pb pl pr in
  Forall sized ts -> importable o (map dims ts) -> apply o ts = Some t -> good impl ninf q o ts t.
Proof.
  intros o SZ (-> & Ht & Hb & Hl & Hr & H & W & C & EI) HA. destruct (one_tensor _ _ EI) as (x & ->). clear EI.
  inversion SZ as [|? ? S1 _]; subst. destruct (sized_image _ _ _ _ S1) as (HH & HW & HC & HX). clear SZ.
  unfold apply in HA. cbn [out_dims map dims bind o image_dims image] in HA. injection HA as <-. subst o.
  assert (SO : size_of [pt + H + pb; pl + W + pr; C] = C * (H + pt + pb) * (W + pl + pr)) by (cbn; nia).
  assert (ZV : zlen (zero_padded_value channels_last pt pb pl pr (mkT [H; W; C] x)) = (pt + H + pb) * (pl + W + pr) * C).
  { unfold zero_padded_value. cbn [dims image_dims of_px]. rewrite zlen_tab3 by lia. reflexivity. }
  split; [apply sized_image_intro; try lia; exact ZV|].
  cbn [dims map import_layer]. unfold import_pad. cbn [chw moved bind]. rewrite SO, Z.eqb_refl.
  eexists. split; [reflexivity|]. cbn [lkind out_size out_channels]. unfold PropertiesPad.pad_size. cbn [pd_front pd_top pd_left pd_back pd_bottom pd_right].
  split; [lia|]. split; [do 3 f_equal; lia|]. split; [exact I|].
  cbn [unsoft result]. split; [rewrite ZV; nia|]. split.
  - unfold lay. cbn [dims vals]. rewrite pad_meaning by lia. reflexivity.
  - intros _ _. split; [exact linear_ok|]. cbn [lkind]. split; [f_equal; cbn; lia|]. split; [|exact I]. unfold pads_ok. cbn [pd_front pd_top pd_left pd_back pd_bottom pd_right]. lia.
Qed.
Lemma bn_good impl ninf q axis gamma beta mean var eps ts t : let o := BatchNormalization axis gamma beta mean var eps in
  Forall sized ts -> importable o (map dims ts) -> apply o ts = Some t -> good impl ninf q o ts t.
Proof.
  intros o SZ (HAx & H & W & C & g & b & EI & -> & -> & Hg & Hb & Hm & Hv) HA. destruct (one_tensor _ _ EI) as (x & ->). clear EI.
  inversion SZ as [|? ? S1 _]; subst. destruct (sized_image _ _ _ _ S1) as (HH & HW & HC & HX). clear SZ.
  unfold apply in HA. cbn [out_dims map dims bind o] in HA. injection HA as <-. subst o. set (C := zlen g) in *.
  assert (SO : size_of [H; W; C] = C * H * W) by (cbn; lia).
  assert (ZV : zlen (normalised axis (Some g) (Some b) mean var eps (mkT [H; W; C] x)) = H * W * C).
  { unfold normalised. cbn [dims vals]. assert (EA : axis_of axis (zlen [H; W; C]) = Some 2) by (destruct HAx as [-> | ->]; reflexivity). rewrite EA. cbv zeta. rewrite zlen_tab; lia. }
  split; [apply sized_image_intro; try lia; exact ZV|].
  cbn [dims map import_layer]. unfold import_bn. cbn [chw moved bind]. rewrite SO, Z.eqb_refl. fold C. rewrite Hb, Hm, Hv, !Z.eqb_refl.
  eexists. split; [reflexivity|]. cbn [lkind out_size out_channels]. split; [lia|]. split; [reflexivity|]. split; [exact I|].
  cbn [unsoft result]. split; [rewrite ZV; lia|]. split.
  - unfold lay. cbn [dims vals]. rewrite (bn_meaning ninf q H W C g b mean var eps x axis) by (assumption || lia). reflexivity.
  - intros _ _. split; [exact linear_ok|]. cbn [lkind]. split; [f_equal; lia|]. split; [lia|]. split; [lia|]. split; [lia|]. split; [reflexivity|]. split; [exact Hm|]. split; [exact Hv|exact Hb].
Qed.
