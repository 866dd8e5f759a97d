(** * What the Keras importer accepts and computes rightly, layer by layer (used by C69). *)
From Coq Require Import String.
From Coq Require Import ZArith List Lia Bool Reals Lra QArith.
Import ListNotations.
From Verif Require Import CMem Tensor Num RealInst Padding Conv ConvProofs ConvHWCProofs Pooling PoolingProofs Pad Reduce Movement MovementProofs Linear Graph LayerKinds Net Import PropertiesImport
  PropertiesActivation PropertiesPooling PropertiesOnnxWindow ExportOps.
From Verif Require Activation Broadcast BroadcastProofs OnnxWindowSpec.
From Verif Require Import KerasSpec Keras KerasProofs.
Open Scope list_scope.
Open Scope Z_scope.

(** The layers that are imported rightly; [ins]: dimensions of the operands. *)
Definition importable (o : op) (ins : list (list Z)) : Prop :=
  match o with
  | Dense units kernel bias a =>
      0 < units /\ (exists b, bias = Some b /\ zlen b = units) /\ exists n, ins = [[n]] /\ zlen kernel = n * units
  | Conv2D fmt filters kh kw sh sw p dh dw groups kernel bias a =>
      fmt = channels_last /\ sh = sw /\ dh = dw /\ groups = 1 /\ (p = valid \/ dh = 1) /\ 0 < filters /\
      (exists b, bias = Some b /\ zlen b = filters) /\
      (exists H W C, ins = [[H; W; C]] /\ zlen kernel = kh * kw * C * filters) /\
      (a = softmax -> out_dims o ins = Some [1; 1; filters])
  | MaxPooling2D fmt ph pw sh sw p | AveragePooling2D fmt ph pw sh sw p => fmt = channels_last /\ ph = pw /\ sh = sw /\ exists H W C, ins = [[H; W; C]]
  | Flatten fmt => fmt = channels_last /\ exists H W C, ins = [[H; W; C]]
  | Merge _ => Forall (fun ds => zlen ds = 3) ins
  | Concatenate axis => 1 <= axis /\ Forall (fun ds => zlen ds = 3) ins /\ 2 <= zlen ins
  | ZeroPadding2D fmt t b l r => fmt = channels_last /\ 0 <= t /\ 0 <= b /\ 0 <= l /\ 0 <= r /\ exists H W C, ins = [[H; W; C]]
  | BatchNormalization axis gamma beta mean var eps =>
      (axis = 3 \/ axis = -1) /\ exists H W C g b, ins = [[H; W; C]] /\ gamma = Some g /\ beta = Some b /\
      zlen g = C /\ zlen b = C /\ zlen mean = C /\ zlen var = C
  | Dropout | Reshape _ => False
  end.
(** Further condition for the generated C code (C18: the pooling code swaps the
    paddings of the two directions). *)
Definition generable (o : op) (ins : list (list Z)) : Prop :=
  match o, ins with
  | MaxPooling2D _ ph pw sh sw p, [[H; W; _]] | AveragePooling2D _ ph pw sh sw p, [[H; W; _]] =>
      window_before p H ph sh 1 = window_before p W pw sw 1
  | _, _ => True
  end.
Definition lay (t : tensor) : list R := layout (dims t) (vals t).

(** ** Windows. *)
Definition pad_total (p : padding) (n k s d : Z) : Z := match p with valid => 0 | same => pad_along n k s d end.
Lemma window_facts p n k s d : 0 < n -> windowed p n k s d = true -> (p = valid \/ d = 1) ->
  1 <= k /\ 1 <= s /\ 1 <= d /\ 1 <= window_count p n k s d /\ window_before p n k s d = pad_total p n k s d / 2 /\
  0 <= pad_total p n k s d < k /\
  window_count p n k s d = conv_output_size n (pad_total p n k s d / 2) (pad_total p n k s d - pad_total p n k s d / 2) k s d.
Proof.
  intros Hn HW HP. unfold windowed in HW. rewrite !andb_true_iff in HW. destruct HW as (((H1 & H2) & H3) & H4). rewrite Z.leb_le in H1, H2, H3.
  split; [exact H1|]. split; [exact H2|]. split; [exact H3|]. destruct p; cbn [pad_total window_before].
  - apply Z.leb_le in H4. unfold window_count, conv_output_size. split.
    + pose proof (Z.div_pos (n - extent k d) s). lia.
    + split; [reflexivity|]. split; [lia|]. f_equal. f_equal. unfold extent. cbn. lia.
  - destruct HP as [HP| ->]; [discriminate|]. destruct (pad_along_spec n k s Hn H1 ltac:(lia)) as (PA & PB).
    pose proof (same_total_eq n k s Hn H1 ltac:(lia)) as E. unfold OnnxWindowSpec.same_total in E.
    assert (WC : 1 <= - (- n / s)).
    { assert (- n / s <= -1); [|lia]. apply Z.lt_succ_r. apply Z.div_lt_upper_bound; lia. }
    split; [exact WC|]. split; [unfold window_count, extent; rewrite E; reflexivity|]. split.
    + split; [exact PA|]. rewrite <- E. assert ((- (- n / s) - 1) * s < n); [|lia].
      assert ((- (- n / s) - 1) < n / s + 1); [|].
      { pose proof (Z.div_mod n s ltac:(lia)). pose proof (Z.mod_pos_bound n s ltac:(lia)). pose proof (Z.div_mod (- n) s ltac:(lia)). pose proof (Z.mod_pos_bound (- n) s ltac:(lia)). nia. }
      pose proof (Z.div_mod (- n) s ltac:(lia)). pose proof (Z.mod_pos_bound (- n) s ltac:(lia)). nia.
    + unfold window_count, conv_output_size. rewrite <- PB. f_equal. f_equal. lia.
Qed.
Lemma padding_facts p H W kh kw s d :
  compute_padding (padding_arg p) H W kh kw s d =
  (pad_total p W kw s d - pad_total p W kw s d / 2, pad_total p W kw s d / 2, pad_total p H kh s d - pad_total p H kh s d / 2, pad_total p H kh s d / 2).
Proof. destruct p; reflexivity. Qed.

(** The same layer without its softmax. *)
Definition unsoft (o : op) : op :=
  match o with
  | Dense units kernel bias a => Dense units kernel bias (pre a)
  | Conv2D fmt filters kh kw sh sw p dh dw groups kernel bias a => Conv2D fmt filters kh kw sh sw p dh dw groups kernel bias (pre a)
  | _ => o
  end.
Lemma activated_pre a ds x : activated (pre a) ds x = map (act_fn (pre a)) x.
Proof. destruct a; reflexivity. Qed.

(** What is shown of the layer [l] created for a Keras layer. *)
Definition good (impl : conv_impl) (ninf : R) (q : Q -> R) (o : op) (ts : list tensor) (t : tensor) : Prop :=
  sized t /\
  exists l, import_layer impl o (map dims ts) (dims t) = Some l /\
    out_size Rnum (lkind Rnum l) = size_of (dims t) /\
    out_channels Rnum (lkind Rnum l) = match dims t with [H; W; C] => Some (C, H, W) | _ => None end /\
    match lkind Rnum l with KInput4 _ _ _ _ | KInput _ _ | KConstant _ _ | KSoftmax _ _ _ _ _ => False | KFlatten _ _ _ _ _ => exists fmt, o = Flatten fmt | _ => True end /\
    zlen (result (unsoft o) ts (dims t)) = size_of (dims t) /\
    meaning Rnum ninf q l (map lay ts) = layout (dims t) (result (unsoft o) ts (dims t)) /\
    (impl = SixLoops -> generable o (map dims ts) -> accepts Rnum l (map (fun u => size_of (dims u)) ts)).

Lemma act_ok a : act_supported Rnum (create_actv a).
Proof.
  destruct a; try (left; exact I). right. split; [exact Rring|]. split; [exact Rnum_order|]. cbn. unfold Rltb. destruct (Rlt_dec (2 / 10) 0); [lra|reflexivity].
Qed.
Lemma linear_ok : act_supported Rnum (@Activation.LinearAct Rnum).
Proof. left. exact I. Qed.
Lemma zero_product_R : zero_product_law Rnum.
Proof. intros s y. cbn. ring. Qed.

Lemma one_tensor ts ds : map dims ts = [ds] -> exists x, ts = [mkT ds x].
Proof. destruct ts as [|[d x] [|? ?]]; cbn; intros E; try discriminate. injection E as ->. exists x. reflexivity. Qed.
Lemma sized_image H W C x : sized (mkT [H; W; C] x) -> 0 < H /\ 0 < W /\ 0 < C /\ zlen x = H * W * C.
Proof.
  intros (P & E). cbn [dims vals] in *. inversion P as [|? ? ? P1]; inversion P1 as [|? ? ? P2]; inversion P2; subst. repeat split; try assumption. rewrite E. cbn. lia.
Qed.
Lemma sized_image_intro H W C x : 0 < H -> 0 < W -> 0 < C -> zlen x = H * W * C -> sized (mkT [H; W; C] x).
Proof. intros. split; cbn [dims vals]; [repeat constructor; assumption|]. cbn. lia. Qed.
Lemma zlen_softmaxed ds x : 0 <= zlen x -> zlen (softmaxed ds x) = zlen x.
Proof. intros. unfold softmaxed. cbv zeta. apply zlen_tab. assumption. Qed.
Lemma zlen_nonneg {A} (l : list A) : 0 <= zlen l.
Proof. unfold zlen. lia. Qed.
Lemma zlen_activated a ds x : zlen (activated a ds x) = zlen x.
Proof. destruct a; try apply zlen_map. apply zlen_softmaxed. apply zlen_nonneg. Qed.
Lemma bool_and a b : a = true -> b = true -> a && b = true.
Proof. intros -> ->. reflexivity. Qed.

Lemma dense_good impl ninf q units kernel bias a ts t : let o := Dense units kernel bias a in
  Forall sized ts -> importable o (map dims ts) -> apply o ts = Some t -> good impl ninf q o ts t.
Proof.
  intros o SZ (HU & (b & -> & HB) & n & EI & HK) HA. destruct (one_tensor _ _ EI) as (x & ->). clear EI.
  inversion SZ as [|? ? S1 _]; subst. destruct S1 as (P & E). cbn [dims vals] in *. inversion P; subst. clear P SZ.
  unfold apply in HA. cbn [map dims out_dims rev app bind o] in HA. injection HA as <-. subst o. cbn [dims vals result].
  assert (ZD : zlen (dense_value (zlen b) kernel (Some b) (mkT [n] x)) = zlen b).
  { unfold dense_value. cbn [dims last size_of fold_right]. rewrite Z.mul_1_r, Z.div_same, Z.mul_1_l by lia. apply zlen_tab. lia. }
  assert (ED : size_of [zlen b] = zlen b) by (cbn; lia).
  split; [|].
  { split; cbn [dims vals]; [repeat constructor; assumption|]. rewrite zlen_activated, ZD, ED. reflexivity. }
  eexists. split.
  { cbn [map dims import_layer]. unfold import_dense. cbn [bind]. rewrite ED, Z.eqb_refl. cbn [andb]. reflexivity. }
  cbn [lkind out_size out_channels dims]. split; [rewrite ED; reflexivity|]. split; [reflexivity|]. split; [exact I|].
  split; [cbn [unsoft result]; rewrite zlen_activated, ZD, ED; reflexivity|]. split.
  - rewrite ?ED. replace (size_of [n]) with n by (cbn; lia). cbn [map lay unsoft result]. rewrite activated_pre. apply dense_meaning; assumption.
  - intros _ _. split; [apply act_ok|]. cbn [lkind map dims]. rewrite ?ED. replace (size_of [n]) with n by (cbn; lia).
    split; [reflexivity|]. split; [lia|]. split; [apply Z.lt_le_incl; exact HU|]. split; [exact HK|reflexivity].
Qed.

Lemma out_window_some fmt ds p kh kw sh sw dh dw ch out : out_window fmt ds p kh kw sh sw dh dw ch = Some out ->
  exists H W C, image_dims fmt ds = Some (H, W, C) /\ windowed p H kh sh dh = true /\ windowed p W kw sw dw = true /\
    out = image fmt (window_count p H kh sh dh) (window_count p W kw sw dw) (ch C).
Proof.
  unfold out_window. destruct (image_dims fmt ds) as [[[H W] C]|]; [|discriminate]. cbn [bind].
  destruct (windowed p H kh sh dh) eqn:E1; [|discriminate]. destruct (windowed p W kw sw dw) eqn:E2; [|discriminate]. cbn [andb].
  intros E. injection E as <-. exists H, W, C. auto.
Qed.

Lemma conv_good impl ninf q fmt filters kh kw sh sw p dh dw groups kernel bias a ts t : let o := Conv2D fmt filters kh kw sh sw p dh dw groups kernel bias a in
  Forall sized ts -> importable o (map dims ts) -> apply o ts = Some t -> good impl ninf q o ts t.
Proof.
  intros o SZ (-> & -> & -> & -> & HP & HF & (b & -> & HB) & (H & W & C & EI & HK) & HS) HA. destruct (one_tensor _ _ EI) as (x & ->). clear EI.
  inversion SZ as [|? ? S1 _]; subst. destruct (sized_image _ _ _ _ S1) as (HH & HW & HC & HX). clear SZ S1.
  unfold apply in HA. destruct (out_dims o (map dims [mkT [H; W; C] x])) as [out|] eqn:EO; [|discriminate]. cbn [bind] in HA. injection HA as <-.
  cbn [out_dims map dims o] in EO. destruct (out_window_some _ _ _ _ _ _ _ _ _ _ _ EO) as (H' & W' & C' & E1 & E2 & E3 & ->). cbn [image_dims] in E1. injection E1 as <- <- <-.
  cbn [image]. subst o.
  destruct (window_facts p H kh sw dw HH E2 HP) as (K1 & K2 & K3 & K4 & K5 & K6 & K7).
  destruct (window_facts p W kw sw dw HW E3 HP) as (L1 & L2 & L3 & L4 & L5 & L6 & L7).
  set (OH := window_count p H kh sw dw) in *. set (OW := window_count p W kw sw dw) in *.
  assert (EV : conv_value channels_last (zlen b) kh kw sw sw p dw dw 1 kernel (Some b) (mkT [H; W; C] x) =
    tab3 OH OW (zlen b) (fun i j f => nsum Rnum kh (fun u => nsum Rnum kw (fun v => nsum Rnum C (fun c =>
      px0 channels_last H W C x (i * sw + u * dw - pad_total p H kh sw dw / 2) (j * sw + v * dw - pad_total p W kw sw dw / 2) c * nthZ 0%R kernel (((u * kw + v) * C + c) * zlen b + f)))) + nthZ 0%R b f)%R).
  { unfold conv_value. cbn [dims vals image_dims of_px bias_at]. fold OH OW. rewrite K5, L5. apply tab3_ext; try lia. intros i j f Hi Hj Hf. f_equal.
    rewrite !Z.div_1_r. rewrite (Z.div_small f) by lia.
    apply nsum_ext. intros u Hu. apply nsum_ext. intros v Hv. apply nsum_ext. intros c Hc. cbn [nmul Rnum]. do 2 f_equal. }
  assert (ZV : zlen (conv_value channels_last (zlen b) kh kw sw sw p dw dw 1 kernel (Some b) (mkT [H; W; C] x)) = OH * OW * zlen b) by (rewrite EV; apply zlen_tab3; lia).
  assert (SO : size_of [OH; OW; zlen b] = OH * OW * zlen b) by (cbn; lia).
  split; [apply sized_image_intro; try lia; cbn [result]; rewrite zlen_activated; exact ZV|].
  cbn [dims]. eexists. split.
  { cbn [map dims import_layer]. unfold import_conv. cbn [bind chw moved]. rewrite padding_facts. rewrite SO. rewrite Z.div_1_r.
    replace (OH * OW * zlen b) with (zlen b * OH * OW) by lia. rewrite <- K7, <- L7, !Z.eqb_refl. cbn [andb]. reflexivity. }
  cbn [lkind out_size out_channels nf oh ow]. rewrite SO. split; [lia|]. split; [reflexivity|]. split; [exact I|].
  split; [cbn [unsoft result]; rewrite zlen_activated; exact ZV|]. split.
  - cbn [map lay unsoft result dims vals]. rewrite activated_pre, EV. apply conv_meaning; lia.
  - intros -> _. split; [apply act_ok|]. cbn [lkind map dims ic ih iw]. split; [f_equal; cbn; lia|]. unfold conv_supported. cbn [ic ih iw nf oh ow Conv.kh Conv.kw].
    repeat (split; [lia|]). split; [|split; [reflexivity|exact zero_product_R]]. unfold reordered. rewrite zlen_tab3 by nia. lia.
Qed.
