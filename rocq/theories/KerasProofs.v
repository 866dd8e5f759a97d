(** * Each layer created by the Keras importer computes the Keras layer, on
    tensors converted to channels first (used by C69). *)
From Coq Require Import String.
From Coq Require Import ZArith List Lia Bool Reals Lra QArith.
Import ListNotations.
From Verif Require Import CMem Tensor Num RealInst Padding Conv ConvProofs ConvHWCProofs Pooling PoolingProofs Pad Reduce Movement MovementProofs Linear Graph LayerKinds Net Import PropertiesImport
  PropertiesActivation PropertiesPooling PropertiesOnnxWindow ExportOps.
From Verif Require Activation Broadcast BroadcastProofs OnnxWindowSpec.
From Verif Require Import KerasSpec Keras.
Open Scope list_scope.
Open Scope Z_scope.

(** The channels-first order of a tensor of three dimensions. *)
Definition layout (ds : list Z) (x : list R) : list R :=
  match ds with [H; W; C] => to_first 0%R C H W x | _ => x end.
Definition sized (t : tensor) : Prop := Forall (fun d => 0 < d) (dims t) /\ zlen (vals t) = size_of (dims t).

Lemma layout_tab H W C f : 0 <= H -> 0 <= W -> 0 <= C ->
  layout [H; W; C] (tab3 H W C f) = tab3 C H W (fun c i j => f i j c).
Proof. intros. cbn [layout]. unfold to_first. apply tab3_ext; try assumption. intros c i j Hc Hi Hj. rewrite at3_tab3 by assumption. reflexivity. Qed.
Lemma at3_layout H W C x c i j : 0 <= c < C -> 0 <= i < H -> 0 <= j < W ->
  at3 0%R H W (layout [H; W; C] x) c i j = at3 0%R W C x i j c.
Proof. intros. cbn [layout]. unfold to_first. rewrite at3_tab3 by assumption. reflexivity. Qed.
Lemma zlen_layout ds x : Forall (fun d => 0 < d) ds -> zlen x = size_of ds -> zlen (layout ds x) = size_of ds.
Proof.
  intros P E. destruct ds as [|a [|b [|c [|? ?]]]]; try exact E. inversion P as [|? ? ? P1]; inversion P1 as [|? ? ? P2]; inversion P2; subst.
  cbn [layout]. unfold to_first. rewrite zlen_tab3 by lia. cbn. lia.
Qed.
Lemma map_layout f ds x : Forall (fun d => 0 < d) ds -> zlen x = size_of ds -> map f (layout ds x) = layout ds (map f x).
Proof.
  intros P E. destruct ds as [|a [|b [|c [|? ?]]]]; try reflexivity. inversion P as [|? ? ? P1]; inversion P1 as [|? ? ? P2]; inversion P2; subst.
  cbn [layout]. unfold to_first. rewrite map_tab3. apply tab3_ext; try lia. intros c0 i j Hc Hi Hj. unfold at3.
  pose proof (idx3_range a b c i j c0 ltac:(lia) ltac:(lia) ltac:(lia)) as B. symmetry. apply nthZ_map. rewrite E. cbn [size_of fold_right]. lia.
Qed.

(** ** Activations. *)
Lemma compute_act a v : a <> softmax -> Activation.compute Rnum (create_actv a) v = act_fn a v.
Proof.
  intros Ha. rewrite compute_intended.
  - destruct a; try reflexivity.
  - destruct a; try exact I. cbn. unfold Rltb. destruct (Rlt_dec (2 / 10) 0); [lra|reflexivity].
Qed.
Lemma compute_softmax v : Activation.compute Rnum (create_actv softmax) v = v.
Proof. reflexivity. Qed.
(** The layer's activation; a softmax is done by the next layer. *)
Definition pre (a : activation) : activation := match a with softmax => linear | _ => a end.
Lemma compute_pre a v : Activation.compute Rnum (create_actv a) v = act_fn (pre a) v.
Proof. destruct a; try (apply compute_act; discriminate). reflexivity. Qed.

(** ** Sums. *)
Lemma Rring : ring_laws Rnum. Proof. exact (fl_ring _ Rnum_field). Qed.
Lemma sum_snoc l v : sum (l ++ [v]) = (sum l + v)%R.
Proof. unfold sum. induction l as [|u l IH]; cbn [app fold_right]; [lra|rewrite IH; lra]. Qed.
Lemma sum_fold l v : fold_left Rplus l v = (v + sum l)%R.
Proof. revert v. induction l as [|u l IH]; intros v; cbn [fold_left sum fold_right]; [lra|]. rewrite IH. unfold sum. lra. Qed.
Lemma sub_fold l v : fold_left Rminus l v = (v - sum l)%R.
Proof. revert v. induction l as [|u l IH]; intros v; cbn [fold_left sum fold_right]; [lra|]. rewrite IH. unfold sum. lra. Qed.
Lemma mul_fold l v : fold_left Rmult l v = (v * product l)%R.
Proof. revert v. induction l as [|u l IH]; intros v; cbn [fold_left product fold_right]; [lra|]. rewrite IH. unfold product. lra. Qed.
Lemma max_eq a b : Activation.np_maximum Rnum a b = Rmax a b.
Proof. unfold Activation.np_maximum. cbn [nlt Rnum]. unfold Rltb, Rmax. destruct (Rlt_dec a b), (Rle_dec a b); lra. Qed.
Lemma min_eq a b : Activation.np_minimum Rnum a b = Rmin a b.
Proof. unfold Activation.np_minimum. cbn [nlt Rnum]. unfold Rltb, Rmin. destruct (Rlt_dec b a), (Rle_dec a b); lra. Qed.
Lemma fold_ext {A} (f g : A -> A -> A) l v : (forall a b, f a b = g a b) -> fold_left f l v = fold_left g l v.
Proof. intros E. revert v. induction l as [|u l IH]; intros v; cbn [fold_left]; [reflexivity|]. rewrite E. apply IH. Qed.

(** ** Dense. *)
Lemma dense_meaning ninf q n units kernel b a x : 0 < n -> 0 < units ->
  meaning Rnum ninf q (mkLayer Rnum (KDense Rnum n units kernel b) (create_actv a)) [x] =
  map (act_fn (pre a)) (dense_value units kernel (Some b) (mkT [n] x)).
Proof.
  intros Hn Hu. unfold meaning, meaning_with, dense_value. cbn [lkind lact dims vals last size_of fold_right bias_at].
  rewrite map_tab. replace (n * 1 / n * units) with units by (rewrite Z.mul_1_r, Z.div_same by lia; lia).
  apply tab_ext. intros k Hk. rewrite compute_pre. f_equal. rewrite Z.div_small, Z.mod_small by lia.
  cbn [nadd Rnum]. f_equal. apply nsum_ext. intros m Hm. cbn [nmul Rnum]. unfold at2. f_equal; f_equal; lia.
Qed.

(** ** Convolution. *)
Lemma px0_layout H W C x c i j : 0 <= c < C -> zero_padded (N := Rnum) H W (layout [H; W; C] x) c i j = px0 channels_last H W C x i j c.
Proof.
  intros Hc. unfold zero_padded, px0, px.
  destruct (Z.leb_spec 0 i), (Z.ltb_spec i H), (Z.leb_spec 0 j), (Z.ltb_spec j W); cbn [andb]; try reflexivity.
  apply at3_layout; lia.
Qed.
Lemma conv_meaning ninf q impl H W C F OH OW kh kw s d top left bottom right kernel b a x :
  0 < H -> 0 < W -> 0 < C -> 0 < F -> 0 <= OH -> 0 <= OW -> 1 <= kh -> 1 <= kw ->
  meaning Rnum ninf q (mkLayer Rnum (KConv Rnum impl (mkConv C H W F OH OW kh kw s d top left bottom right) (reordered kh kw C F kernel) b) (create_actv a)) [layout [H; W; C] x] =
  layout [OH; OW; F] (map (act_fn (pre a)) (tab3 OH OW F (fun i j f =>
    nsum Rnum kh (fun u => nsum Rnum kw (fun v => nsum Rnum C (fun c =>
      px0 channels_last H W C x (i * s + u * d - top) (j * s + v * d - left) c * nthZ 0%R kernel (((u * kw + v) * C + c) * F + f)))) + nthZ 0%R b f)%R)).
Proof.
  intros HH HW HC HF HOH HOW Hkh Hkw. unfold meaning, meaning_with, convolution. cbn [lkind lact nf oh ow ic ih iw Conv.kh Conv.kw strides dilation pt pl].
  rewrite !map_tab3. rewrite layout_tab by lia. apply tab3_ext; try lia. intros f i j Hf Hi Hj. rewrite compute_pre. f_equal. cbn [nadd Rnum]. f_equal.
  rewrite (nsum3_nest Rnum Rring) by lia.
  transitivity (nsum Rnum C (fun p => nsum Rnum kh (fun u => nsum Rnum kw (fun v =>
     (px0 channels_last H W C x (i * s + u * d - top) (j * s + v * d - left) p * nthZ 0%R kernel (((u * kw + v) * C + p) * F + f))%R)))).
  - apply nsum_ext. intros p Hp. apply nsum_ext. intros u Hu. apply nsum_ext. intros v Hv. cbn [nmul Rnum]. rewrite px0_layout by lia. f_equal.
    unfold reordered. rewrite at3_tab3 by nia. f_equal. rewrite (Z.add_comm p (C * f)), (Z.mul_comm C f), Z.div_add_l, Z.div_small by lia.
    rewrite (Z.add_comm (f * C)), Z.mod_add, Z.mod_small by lia. lia.
  - rewrite (nsum_swap Rnum Rring) by lia. apply nsum_ext. intros u Hu. apply (nsum_swap Rnum Rring). lia.
Qed.

(** ** Pooling. *)
Lemma flat_map_ext_in {A B} (f g : A -> list B) l : (forall a, In a l -> f a = g a) -> flat_map f l = flat_map g l.
Proof. intros E. induction l as [|a l IH]; cbn [flat_map]; [reflexivity|]. rewrite E by (left; reflexivity). f_equal. apply IH. intros b Hb. apply E. right. exact Hb. Qed.
Lemma window_below P H W C x i j c : p_IH P = H -> p_IW P = W -> 0 <= c < C ->
  window (PropertiesPooling.image 0%R P (layout [H; W; C] x) c) H W (p_size P) (p_stride P) (p_top P) (p_left P) i j =
  below channels_last H W C x (p_size P) (p_size P) (p_stride P) (p_stride P) (p_top P) (p_left P) i j c.
Proof.
  intros EH EW Hc. unfold window, below, zrange, upto. apply flat_map_ext. intros a. apply flat_map_ext. intros b. cbv zeta.
  unfold PropertiesPooling.image. rewrite EH, EW.
  destruct (Z.leb_spec 0 (i * p_stride P + a - p_top P)), (Z.ltb_spec (i * p_stride P + a - p_top P) H),
    (Z.leb_spec 0 (j * p_stride P + b - p_left P)), (Z.ltb_spec (j * p_stride P + b - p_left P) W); cbn [andb]; try reflexivity.
  f_equal. rewrite at3_layout by lia. reflexivity.
Qed.
Lemma max_pool_meaning ninf q P H W C x : pool_accepts P -> p_IH P = H -> p_IW P = W -> p_C P = C ->
  meaning Rnum ninf q (mkLayer Rnum (KMaxPool Rnum P) Activation.LinearAct) [layout [H; W; C] x] =
  layout [p_OH P; p_OW P; C] (tab3 (p_OH P) (p_OW P) C (fun i j c =>
    maximum (below channels_last H W C x (p_size P) (p_size P) (p_stride P) (p_stride P) (p_top P) (p_left P) i j c))).
Proof.
  intros A EH EW EC. pose proof A as (HC & HIH & HIW & Hz & Hs & Ht & Hl & Hb & Hr & E1 & E2 & HOH & HOW).
  unfold meaning, meaning_with. cbn [lkind lact Activation.compute]. rewrite layout_tab by lia. rewrite EC. apply tab3_ext; try lia. intros c i j Hc Hi Hj.
  pose proof (window_nonempty (PropertiesPooling.image 0%R P (layout [H; W; C] x) c) P i j A Hi Hj) as NE. rewrite EH, EW in NE |- *.
  change (n0 Rnum) with 0%R. rewrite window_below in NE |- * by (assumption || lia).
  unfold np_amax, maximum. destruct (below _ _ _ _ _ _ _ _ _ _ _ _ _ _) as [|v l]; [congruence|]. apply fold_ext. exact max_eq.
Qed.
Lemma avg_pool_meaning ninf q P H W C x : pool_accepts P -> p_IH P = H -> p_IW P = W -> p_C P = C ->
  meaning Rnum ninf q (mkLayer Rnum (KAvgPool Rnum P) Activation.LinearAct) [layout [H; W; C] x] =
  layout [p_OH P; p_OW P; C] (tab3 (p_OH P) (p_OW P) C (fun i j c =>
    average (below channels_last H W C x (p_size P) (p_size P) (p_stride P) (p_stride P) (p_top P) (p_left P) i j c))).
Proof.
  intros A EH EW EC. pose proof A as (HC & HIH & HIW & Hz & Hs & Ht & Hl & Hb & Hr & E1 & E2 & HOH & HOW).
  unfold meaning, meaning_with. cbn [lkind lact Activation.compute]. rewrite layout_tab by lia. rewrite EC. apply tab3_ext; try lia. intros c i j Hc Hi Hj.
  rewrite EH, EW. change (n0 Rnum) with 0%R. rewrite window_below by (assumption || lia). unfold np_mean, average. cbn [ndiv nofZ Rnum nadd n0]. f_equal.
  rewrite sum_fold. lra.
Qed.

(** ** Flatten. *)
Lemma flatten_meaning ninf q H W C x : 0 <= H -> 0 <= W -> 0 <= C ->
  meaning Rnum ninf q (mkLayer Rnum (KFlatten Rnum true C H W) Activation.LinearAct) [layout [H; W; C] x] =
  tab3 H W C (fun i j c => px channels_last H W C x i j c).
Proof.
  intros HH HW HC. unfold meaning, meaning_with. cbn [lkind lact]. apply tab3_ext; try assumption. intros i j c Hi Hj Hc. exact (at3_layout H W C x c i j Hc Hi Hj).
Qed.

(** ** Zero padding. *)
Lemma pad_meaning ninf q H W C t b l r x : 0 < H -> 0 < W -> 0 < C -> 0 <= t -> 0 <= b -> 0 <= l -> 0 <= r ->
  meaning Rnum ninf q (mkLayer Rnum (KPad Rnum (PadConstant Rnum 0%R) C H W (mkPads 0 t l 0 b r)) Activation.LinearAct) [layout [H; W; C] x] =
  layout [t + H + b; l + W + r; C] (tab3 (t + H + b) (l + W + r) C (fun i j c => px0 channels_last H W C x (i - t) (j - l) c)).
Proof.
  intros HH HW HC Ht Hb Hl Hr. unfold meaning, meaning_with. cbn [lkind lact pad_py Activation.compute]. rewrite layout_tab by lia.
  unfold PropertiesPad.np_pad_constant. cbn [pd_front pd_top pd_left pd_back pd_bottom pd_right]. rewrite map_id.
  replace (C + 0 + 0) with C by lia. replace (H + t + b) with (t + H + b) by lia. replace (W + l + r) with (l + W + r) by lia.
  apply tab3_ext; try lia. intros c i j Hc Hi Hj. cbv zeta. replace (c - 0) with c by lia. change (n0 Rnum) with 0%R. unfold px0, px.
  destruct (Z.leb_spec 0 c), (Z.ltb_spec c C); try lia. cbn [andb].
  destruct (Z.leb_spec 0 (i - t)), (Z.ltb_spec (i - t) H), (Z.leb_spec 0 (j - l)), (Z.ltb_spec (j - l) W); cbn [andb]; try reflexivity.
  apply at3_layout; lia.
Qed.

(** ** Batch normalisation. *)
Lemma bn_meaning ninf q H W C g b mean var eps x axis : 0 < H -> 0 < W -> 0 < C -> zlen x = H * W * C -> (axis = 3 \/ axis = -1) ->
  meaning Rnum ninf q (mkLayer Rnum (KBatchNorm Rnum C H W g mean var b eps) Activation.LinearAct) [layout [H; W; C] x] =
  layout [H; W; C] (normalised axis (Some g) (Some b) mean var eps (mkT [H; W; C] x)).
Proof.
  intros HH HW HC HX HA. unfold normalised. cbn [dims vals].
  assert (EA : axis_of axis (zlen [H; W; C]) = Some 2) by (destruct HA as [-> | ->]; reflexivity). rewrite EA. change (Z.to_nat 2 + 1)%nat with 3%nat. change (Z.to_nat 2) with 2%nat. cbn [skipn size_of fold_right nth].
  unfold meaning, meaning_with. cbn [lkind lact Activation.compute]. rewrite map_id.
  set (G := fun c v => (nthZ 0 g c * (v - nthZ 0 mean c) / sqrt (nthZ 0 var c + eps) + nthZ 0 b c)%R).
  transitivity (tab3 C H W (fun c i j => G c (at3 0%R H W (layout [H; W; C] x) c i j))).
  - unfold tab2, tab3, at3, at2. rewrite <- Z.mul_assoc. apply tab_ext. intros k Hk.
    destruct (split3_range C H W k ltac:(lia) ltac:(lia) ltac:(lia) ltac:(lia)) as (_ & _ & _ & K1 & K2 & K3).
    assert (EJ : k mod (H * W) + H * W * (k / (H * W)) = k) by (pose proof (Z.div_mod k (H * W) ltac:(nia)); lia).
    rewrite idx3_join by lia. change (n0 Rnum) with 0%R. rewrite EJ. reflexivity.
  - unfold layout at 2. unfold to_first. apply tab3_ext; try lia. intros c i j Hc Hi Hj. rewrite at3_layout by lia. unfold at3 at 2.
    pose proof (idx3_range H W C i j c Hi Hj Hc) as B. rewrite nthZ_tab by (rewrite HX; exact B). rewrite Z.div_1_r.
    destruct (idx3_split W C i j c) as (_ & _ & E); try lia. rewrite E. reflexivity.
Qed.

(** ** Softmax. *)
Lemma softmax_meaning ninf q n x : 0 < n -> zlen x = n ->
  meaning Rnum ninf q (mkLayer Rnum (KSoftmax Rnum 1 1 n 3) Activation.LinearAct) [x] = tab n (fun k => exp (nthZ 0%R x k) / nsum Rnum n (fun m => exp (nthZ 0%R x m)))%R.
Proof.
  intros Hn HX. unfold meaning, meaning_with. cbn [lkind lact Activation.compute]. rewrite map_id. unfold softmax_py.
  assert (One : one_dimension 1 1 n = true).
  { unfold one_dimension. cbn [existsb]. replace (1 * 1 * n) with n by lia. rewrite Z.eqb_refl. destruct (n =? 1); reflexivity. }
  rewrite One. cbv zeta. assert (EX : x = tab n (nthZ 0%R x)) by (rewrite <- HX; apply tab_nthZ).
  assert (ES : fold_left (nadd Rnum) (map (nexp Rnum) x) (n0 Rnum) = nsum Rnum n (fun m => exp (nthZ 0%R x m))).
  { transitivity (fold_left (nadd Rnum) (map (nexp Rnum) (tab n (nthZ 0%R x))) (n0 Rnum)); [rewrite <- EX; reflexivity|].
    rewrite map_tab. rewrite (PropertiesOnnxWindow.fold_tab Rnum) by lia. reflexivity. }
  rewrite ES. transitivity (map (fun v => ndiv Rnum v (nsum Rnum n (fun m => exp (nthZ 0%R x m)))) (map (nexp Rnum) (tab n (nthZ 0%R x)))); [rewrite <- EX; reflexivity|].
  rewrite !map_tab. reflexivity.
Qed.

(** ** Merging layers. *)
Lemma combine_merged m l : l <> [] -> BroadcastProofs.combine Rnum (bkind_of m) l None = merged m l.
Proof.
  intros NE. destruct l as [|v l]; [congruence|]. clear NE. unfold BroadcastProofs.combine. destruct m; cbn [bkind_of merged Broadcast.bop nadd nsub nmul Rnum].
  - rewrite sum_fold. unfold sum. cbn [fold_right]. reflexivity.
  - apply sub_fold.
  - rewrite mul_fold. reflexivity.
  - apply fold_ext. exact max_eq.
  - apply fold_ext. exact min_eq.
  - unfold average. cbn [ndiv nofZ Rnum]. f_equal. rewrite sum_fold. reflexivity.
Qed.
(** Images that stretch to H x W x C. *)
Definition stretches (OH OW OC : Z) (t : tensor) : Prop :=
  exists h w c, dims t = [h; w; c] /\ (h = 1 \/ h = OH) /\ (w = 1 \/ w = OW) /\ (c = 1 \/ c = OC).
Definition chw_of (ds : list Z) : Z * Z * Z := match ds with [h; w; c] => (c, h, w) | _ => (0, 0, 0) end.
Lemma bat_stretched t OH OW OC i j f : stretches OH OW OC t -> 0 <= i < OH -> 0 <= j < OW -> 0 <= f < OC ->
  Broadcast.bat Rnum (mk_shape (chw_of (dims t)), layout (dims t) (vals t)) f i j = el_stretched t i j f.
Proof.
  intros (h & w & c & E & Hh & Hw & Hc) Hi Hj Hf. unfold Broadcast.bat, el_stretched, el3. rewrite E. cbn [chw_of mk_shape fst snd Broadcast.sC Broadcast.sH Broadcast.sW three].
  unfold Broadcast.pick. change (n0 Rnum) with 0%R. rewrite at3_layout.
  - reflexivity.
  - destruct (Z.eqb_spec c 1); lia.
  - destruct (Z.eqb_spec h 1); lia.
  - destruct (Z.eqb_spec w 1); lia.
Qed.
Lemma map_combine_ext {A B C D} (f : B * C -> D) (g : A -> D) (h1 : A -> B) (h2 : A -> C) l :
  Forall (fun a => f (h1 a, h2 a) = g a) l -> map f (List.combine (map h1 l) (map h2 l)) = map g l.
Proof. intros F. induction F as [|a l E F IH]; cbn; [reflexivity|]. rewrite E, IH. reflexivity. Qed.
Lemma merge_meaning ninf q m OH OW OC ts : ts <> [] -> 0 < OH -> 0 < OW -> 0 < OC -> Forall (stretches OH OW OC) ts ->
  meaning Rnum ninf q (mkLayer Rnum (KBroadcast Rnum (bkind_of m) (map mk_shape (map (fun t => chw_of (dims t)) ts)) None (Broadcast.mkShape OC OH OW)) Activation.LinearAct)
    (map (fun t => layout (dims t) (vals t)) ts) =
  layout [OH; OW; OC] (merge_value m ts [OH; OW; OC]).
Proof.
  intros NE HH HW HC F. unfold merge_value. cbn [three]. rewrite layout_tab by lia. unfold meaning, meaning_with. cbn [lkind lact].
  unfold BroadcastProofs.broadcast_result. cbn [Broadcast.sC Broadcast.sH Broadcast.sW Activation.compute option_map]. rewrite map_id.
  apply tab3_ext; try lia. intros f i j Hf Hi Hj. rewrite map_map.
  pose proof (map_combine_ext (fun t : Broadcast.tensor Rnum => Broadcast.bat Rnum t f i j) (fun t => el_stretched t i j f)
    (fun t => mk_shape (chw_of (dims t))) (fun t => layout (dims t) (vals t)) ts) as G.
  etransitivity; [apply (f_equal (fun l => BroadcastProofs.combine Rnum (bkind_of m) l None)); apply G|].
  - eapply Forall_impl; [|exact F]. intros t Ht. cbv beta in Ht |- *. eapply bat_stretched; eassumption.
  - apply combine_merged. destruct ts; [congruence|discriminate].
Qed.

(** ** Concatenation. *)
Definition joins (p : Z) (OH OW OC : Z) (t : tensor) : Prop :=
  exists h w c, dims t = [h; w; c] /\ 0 < h /\ 0 < w /\ 0 < c /\ (p <> 0 -> h = OH) /\ (p <> 1 -> w = OW) /\ (p <> 2 -> c = OC).
Definition along (p : Z) (t : tensor) : Z := nth (Z.to_nat p) (dims t) 0.
Definition acetone_axis (p : Z) : Z := if p =? 0 then 2 else if p =? 1 then 3 else 1.
Lemma slice_joined p OH OW OC ts i j f inf : 0 <= p <= 2 -> Forall (joins p OH OW OC) ts ->
  0 <= i < OH -> 0 <= j < OW -> 0 <= f < OC -> 0 <= inf ->
  inf <= (if p =? 0 then i else if p =? 1 then j else f) < inf + fold_right (fun t s => along p t + s) 0 ts ->
  slice_at 0%R (acetone_axis p) inf (map (fun t => (chw_of (dims t), layout (dims t) (vals t))) ts) f i j =
  joined_at p ts (if p =? 0 then i - inf else i) (if p =? 1 then j - inf else j) (if p =? 2 then f - inf else f).
Proof.
  intros Hp F Hi Hj Hf. revert inf. induction F as [|t ts (h & w & c & E & Hh & Hw & Hc & E1 & E2 & E3) F IH]; intros inf Hinf HR.
  { cbn [fold_right] in HR. lia. }
  cbn [map slice_at joined_at fold_right] in *. unfold along in HR at 1. rewrite E in *. cbn [chw_of three].
  assert (P3 : p = 0 \/ p = 1 \/ p = 2) by lia. destruct P3 as [-> | [-> | ->]]; cbn [acetone_axis Z.eqb Pos.eqb] in *; unfold indices, dim in *; cbn [Z.eqb Pos.eqb] in *.
  - change (nth (Z.to_nat 0) [h; w; c] 0) with h in HR. specialize (E2 ltac:(lia)). specialize (E3 ltac:(lia)). subst w c. destruct (Z.ltb_spec i (inf + h)), (Z.ltb_spec (i - inf) h); try lia.
    + rewrite at3_layout by lia. unfold el3. rewrite E. reflexivity.
    + rewrite IH; [cbn [Z.eqb Pos.eqb]; f_equal; lia|lia|cbn [Z.eqb Pos.eqb]; lia].
  - change (nth (Z.to_nat 1) [h; w; c] 0) with w in HR. specialize (E1 ltac:(lia)). specialize (E3 ltac:(lia)). subst h c. destruct (Z.ltb_spec j (inf + w)), (Z.ltb_spec (j - inf) w); try lia.
    + rewrite at3_layout by lia. unfold el3. rewrite E. reflexivity.
    + rewrite IH; [cbn [Z.eqb Pos.eqb]; f_equal; lia|lia|cbn [Z.eqb Pos.eqb]; lia].
  - change (nth (Z.to_nat 2) [h; w; c] 0) with c in HR. specialize (E1 ltac:(lia)). specialize (E2 ltac:(lia)). subst h w. destruct (Z.ltb_spec f (inf + c)), (Z.ltb_spec (f - inf) c); try lia.
    + rewrite at3_layout by lia. unfold el3. rewrite E. reflexivity.
    + rewrite IH; [cbn [Z.eqb Pos.eqb]; f_equal; lia|lia|cbn [Z.eqb Pos.eqb]; lia].
Qed.
Lemma shaped_combine (ts : list tensor) :
  shaped_inputs Rnum (map (fun t => chw_of (dims t)) ts) (map (fun t => layout (dims t) (vals t)) ts) =
  map (fun t => (chw_of (dims t), layout (dims t) (vals t))) ts.
Proof.
  unfold shaped_inputs. induction ts as [|t ts IH]; [reflexivity|]. cbn [map List.combine]. rewrite IH. f_equal. cbn [fst snd]. destruct (chw_of (dims t)) as [[c h] w]. reflexivity.
Qed.
Lemma concat_meaning ninf q axis OH OW OC ts : 1 <= axis <= 3 -> 0 < OH -> 0 < OW -> 0 < OC ->
  Forall (joins (axis - 1) OH OW OC) ts -> nth (Z.to_nat (axis - 1)) [OH; OW; OC] 0 = fold_right (fun t s => along (axis - 1) t + s) 0 ts ->
  meaning Rnum ninf q (mkLayer Rnum (KConcat Rnum (concat_axis axis) OC OH OW (map (fun t => chw_of (dims t)) ts)) Activation.LinearAct)
    (map (fun t => layout (dims t) (vals t)) ts) =
  layout [OH; OW; OC] (join_value axis ts [OH; OW; OC]).
Proof.
  intros HA HH HW HC F HT.
  assert (EA : concat_axis axis = acetone_axis (axis - 1)).
  { assert (A3 : axis = 1 \/ axis = 2 \/ axis = 3) by lia. destruct A3 as [-> | [-> | ->]]; reflexivity. }
  assert (EX : axis_of axis (zlen [OH; OW; OC]) = Some (axis - 1)).
  { unfold axis_of. change (zlen [OH; OW; OC]) with 3. destruct (Z.leb_spec 1 axis), (Z.leb_spec axis 3); try lia. reflexivity. }
  unfold join_value. rewrite EX. cbn [three]. change (zlen [OH; OW; OC]) with 3. replace (axis - 1 + 3 - 3) with (axis - 1) by lia.
  rewrite layout_tab by lia. unfold meaning, meaning_with. cbn [lkind lact Activation.compute]. rewrite map_id, EA, shaped_combine. change (n0 Rnum) with 0%R.
  apply tab3_ext; try lia. intros f i j Hf Hi Hj. rewrite (slice_joined (axis - 1) OH OW OC); try assumption; try lia.
  2: { rewrite <- HT. assert (A3 : axis = 1 \/ axis = 2 \/ axis = 3) by lia. clear HT. destruct A3 as [-> | [-> | ->]];
    [change (1 - 1) with 0; change (nth (Z.to_nat 0) [OH; OW; OC] 0) with OH|change (2 - 1) with 1; change (nth (Z.to_nat 1) [OH; OW; OC] 0) with OW|
     change (3 - 1) with 2; change (nth (Z.to_nat 2) [OH; OW; OC] 0) with OC]; cbn [Z.eqb Pos.eqb]; lia. }
  rewrite !Z.sub_0_r. destruct (axis - 1 =? 0), (axis - 1 =? 1), (axis - 1 =? 2); reflexivity.
Qed.
