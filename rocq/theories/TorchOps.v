(** * What the PyTorch importer accepts and computes rightly, operation by
    operation (used by C71). *)
From Coq Require Import String.
From Coq Require Import ZArith List Lia Bool Reals Lra QArith.
Import ListNotations.
From Verif Require Import CMem Tensor Num RealInst Padding Conv ConvProofs ConvHWCProofs Pooling PoolingProofs Movement MovementProofs Linear Graph LayerKinds Net Import
  PropertiesActivation PropertiesPooling PropertiesOnnxWindow.
From Verif Require Activation Broadcast BroadcastProofs KerasProofs KerasOps KerasOps3 KerasSpec.
From Verif Require Import TorchSpec Torch.
Open Scope string_scope.
Open Scope list_scope.
Open Scope Z_scope.

Definition positive_dims (ds : list Z) : Prop := Forall (fun d => 0 < d) ds.
Definition sized (t : tensor) : Prop := positive_dims (dims t) /\ zlen (vals t) = size_of (dims t).

(** ** The operations that are imported rightly; [given]: the number of
    positional arguments, [ins]: dimensions of the operands. *)
Definition importable (o : op) (given : nat) (ins : list (list Z)) : Prop :=
  defaults_omitted o given /\
  match o with
  | Linear i n w b => 0 < n /\ ins = [[i]] /\ zlen w = n * i /\ exists v, b = Some v /\ zlen v = n
  | Relu | Dropout | Flatten => True
  | Clamp lo hi => exists l h, lo = Some l /\ hi = Some h /\ (l <= h)%R
  | Conv2d f c kh kw w b sh sw p dh dw g =>
      kh = kw /\ sh = sw /\ dh = dw /\ g = 1 /\ p <> SameString /\ (3 <= given)%nat /\ 0 < f /\
      zlen w = f * c * kh * kw /\ match b with Some v => zlen v = f | None => True end
  | BatchNorm w b mean var eps =>
      exists C H W u v, ins = [[C; H; W]] /\ w = Some u /\ b = Some v /\ zlen u = C /\ zlen v = C /\ zlen mean = C /\ zlen var = C
  | Add alpha => alpha = 1%R /\ Forall (fun ds => zlen ds = 3) ins
  | Cat dim => 1 <= dim /\ (2 <= given)%nat /\ Forall (fun ds => zlen ds = 3) ins
  | MaxPool2d kh kw sh sw ph pw dh dw ceil => kh = kw /\ sh = sw /\ dh = 1 /\ dw = 1 /\ ceil = false /\ (3 <= given)%nat
  | AdaptiveAvgPool2d oh ow => oh = 1 /\ ow = 1 /\ exists C H, ins = [[C; H; H]]
  | LeakyRelu _ | Hardtanh _ _ | Sigmoid | Softmax => False
  end.
(** Further condition for the generated C code (C18: the pooling code swaps the
    paddings of the two directions). *)
Definition generable (o : op) : Prop := match o with MaxPool2d _ _ _ _ ph pw _ _ _ => ph = pw | _ => True end.
(** Operations that become a layer; those merged into the layer of the operand
    ([absorbed]); those that leave the operand's layer as it is ([passes]). *)
Definition absorbed (o : op) : bool := match o with Relu | Clamp _ _ | BatchNorm _ _ _ _ _ => true | _ => false end.
Definition passes (o : op) : bool := match o with Dropout | Flatten => true | _ => false end.

Definition made_kind (k : kind Rnum) : bool :=
  match k with KConv _ _ _ _ _ | KDense _ _ _ _ _ | KMaxPool _ _ | KAvgPool _ _ | KBroadcast _ _ _ _ _ | KConcat _ _ _ _ _ _ => true | _ => false end.
Definition channels_of (ds : list Z) : option (Z * Z * Z) := match ds with [c; h; w] => Some (c, h, w) | _ => None end.
(** The layer is a convolution producing images of dimensions [out]. *)
Definition conv_layer (impl : conv_impl) (l : layer Rnum) (out : list Z) : Prop :=
  exists c w b, lkind Rnum l = KConv Rnum impl c w b /\ out = [nf c; oh c; ow c] /\ 0 < nf c /\ 0 < oh c /\ 0 < ow c /\ 0 < ic c /\ 0 < kh c /\ 0 < kw c /\
    zlen w = nf c * ic c * kh c * kw c /\ zlen b = nf c.

(** What is shown of the layer [l] created for an operation. *)
Record created (impl : conv_impl) (ninf : R) (q : Q -> R) (o : op) (given : nat) (ins : list (list Z)) (out : list Z) (l : layer Rnum) : Prop := {
  cr_visit : forall st nm nms vs, Forall2 (fun a v => dlookup (ts_dic st) a = Some v) nms vs -> Forall2 (fun v ds => snd v = ds \/ zlen ds = 1) vs ins ->
    Forall2 (fun v ds => out_size Rnum (lkind Rnum (ts_layer st (fst v))) = size_of ds) vs ins ->
    visit impl st (exported (mkNode nm o nms given)) out = Some (add_layer st nm out (map fst vs) l);
  cr_out : positive_dims out;
  cr_act : lact Rnum l = Activation.LinearAct;
  cr_kind : made_kind (lkind Rnum l) = true;
  cr_size : out_size Rnum (lkind Rnum l) = size_of out;
  cr_channels : out_channels Rnum (lkind Rnum l) = channels_of out;
  cr_conv : match o with Conv2d _ _ _ _ _ _ _ _ _ _ _ _ => conv_layer impl l out | _ => True end;
  cr_dense : match o with Linear _ _ _ _ => zlen out = 1 | _ => True end;
  cr_meaning : forall ts, map dims ts = ins -> Forall sized ts -> zlen (result o ts out) = size_of out /\ meaning Rnum ninf q l (map vals ts) = result o ts out;
  cr_accepts : impl = SixLoops -> generable o -> accepts Rnum l (map size_of ins)
}.

(** ** Calls. *)
Ltac dispatch := repeat match goal with |- context [contains ?a ?b] => let v := eval vm_compute in (contains a b) in change (contains a b) with v end; cbn [orb].
Lemma zlen_nonneg {A} (l : list A) : 0 <= zlen l. Proof. unfold zlen. lia. Qed.
Lemma one_tensor ts ds : map dims ts = [ds] -> exists x, ts = [mkT ds x].
Proof. destruct ts as [|[d x] [|? ?]]; cbn; intros E; try discriminate. injection E as ->. exists x. reflexivity. Qed.
Lemma sized_image C H W x : sized (mkT [C; H; W] x) -> 0 < C /\ 0 < H /\ 0 < W /\ zlen x = C * H * W.
Proof.
  intros (P & E). cbn [dims vals] in *. inversion P as [|? ? ? P1]; inversion P1 as [|? ? ? P2]; inversion P2; subst.
  split; [assumption|]. split; [assumption|]. split; [assumption|]. rewrite E. unfold size_of. cbn [fold_right]. lia.
Qed.
Lemma F2_one_r {A B} (P : A -> B -> Prop) l b : Forall2 P l [b] -> exists a, l = [a] /\ P a b.
Proof. intros F. inversion F as [|a ? l' ? E F']; subst. inversion F'; subst. exists a. auto. Qed.
Lemma F2_one_l {A B} (P : A -> B -> Prop) l a : Forall2 P l [a] -> exists b, l = [b] /\ P b a.
Proof. apply F2_one_r. Qed.
Lemma some_inj {A} (a b : A) : Some a = Some b -> b = a. Proof. congruence. Qed.
Lemma positive3 a b c : 0 < a -> 0 < b -> 0 < c -> positive_dims [a; b; c].
Proof. intros. repeat constructor; assumption. Qed.
Lemma size3 a b c : size_of [a; b; c] = a * b * c. Proof. unfold size_of. cbn [fold_right]. lia. Qed.
Lemma size1 a : size_of [a] = a. Proof. unfold size_of. cbn [fold_right]. lia. Qed.
Lemma chw3 a b c : chw [a; b; c] = Some (a, b, c). Proof. reflexivity. Qed.

(** ** linear *)
Lemma linear_created impl ninf q i n w b given ins out : let o := Linear i n w b in
  Forall positive_dims ins -> importable o given ins -> out_dims o ins = Some out -> exists l, created impl ninf q o given ins out l.
Proof.
  intros o; subst o; intros PD (DF & Hn & -> & Hw & v & -> & Hv) EO. cbn [out_dims rev app] in EO. rewrite Z.eqb_refl in EO. injection EO as <-.
  inversion PD as [|? ? P1 _]; subst. inversion P1 as [|? ? Hi _]; subst. clear PD P1. cbn [defaults_omitted] in DF.
  exists (plain (KDense Rnum i (zlen v) (transposed (zlen v) i w) v)). constructor; cbn [lkind plain lact made_kind out_size out_channels].
  - intros st nm nms vs F2 _ FS. inversion FS as [|v0 ? vs' ? E1 F3]; subst. inversion F3; subst. clear FS F3. inversion F2 as [|a ? nms' ? E2 F4]; subst. inversion F4; subst. clear F2 F4.
    unfold visit, exported. cbn [c_target c_name c_args n_op n_name n_inputs n_given target arguments]. dispatch. cbn [map app param].
    assert (G3 : (3 <= given)%nat) by (destruct DF as (D1 & _); destruct (Nat.lt_ge_cases given 3) as [L|L]; [specialize (D1 L); discriminate|exact L]).
    destruct given as [|[|[|g]]]; try lia. cbn [firstn nth_error bind held]. rewrite E2. cbn [bind fst snd]. unfold import_linear. rewrite size1, Z.eqb_refl. cbn [andb bind]. rewrite E1, size1. reflexivity.
  - repeat constructor. exact Hn.
  - reflexivity.
  - reflexivity.
  - rewrite size1. reflexivity.
  - reflexivity.
  - exact I.
  - reflexivity.
  - intros ts EI SZ. destruct (one_tensor _ _ EI) as (x & ->). clear EI. cbn [map vals result]. unfold linear_value. cbn [dims vals]. rewrite !size1, Z.div_same, Z.mul_1_l by lia. split.
    + apply zlen_tab. lia.
    + unfold meaning, meaning_with. cbn [lkind lact plain Activation.compute]. apply tab_ext. intros k Hk. cbn [or_zero]. rewrite Z.div_small, Z.mod_small by lia. cbn [nadd Rnum]. f_equal.
      apply nsum_ext. intros m Hm. cbn [nmul Rnum]. f_equal. unfold at2, transposed. rewrite nthZ_tab by nia. f_equal.
      rewrite (Z.add_comm k (zlen v * m)), (Z.mul_comm (zlen v) m), Z.div_add_l, Z.div_small by lia. rewrite (Z.add_comm (m * zlen v) k), Z.mod_add, Z.mod_small by lia. lia.
  - intros _ _. split; [exact KerasOps.linear_ok|]. cbn [lkind map plain]. rewrite size1. split; [reflexivity|]. split; [lia|]. split; [lia|]. split; [|reflexivity].
    unfold transposed. apply zlen_tab. nia.
Qed.

(** ** conv2d *)
Definition top_of (p : padding) : Z := pad_before p true 1 1.
Definition left_of (p : padding) : Z := pad_before p false 1 1.
Lemma pads_total p k d : p <> SameString -> pad_total p true k d = 2 * top_of p /\ pad_total p false k d = 2 * left_of p /\
  pad_before p true k d = top_of p /\ pad_before p false k d = left_of p.
Proof. destruct p; intros NE; try congruence; repeat split; reflexivity. Qed.
Lemma conv_arguments f c k w b s p d a given : let o := Conv2d f c k k w b s s p d d 1 in
  defaults_omitted o given -> p <> SameString -> (3 <= given)%nat ->
  let args := firstn given (arguments o [a]) in
  conv_stride args = Some s /\ (exists pad, conv_padding args = Some pad /\ forall H W, compute_padding pad H W k k s d = (left_of p, left_of p, top_of p, top_of p)) /\
  conv_dilation args = Some d /\ conv_group args = Some 1 /\ exists r, args = ANode a :: AParam [f; c; k; k] w :: param [f] b :: r.
Proof.
  intros o; subst o. cbn [defaults_omitted arguments map app]. intros (_ & _ & D4 & D5 & D6 & D7) NS G. cbv zeta.
  assert (CP : forall H W, compute_padding (Explicit 0 0 0 0) H W k k s d = (0, 0, 0, 0)) by reflexivity.
  destruct given as [|[|[|g]]]; try lia. cbn [firstn]. split; [|split; [|split; [|split]]].
  - unfold conv_stride. destruct g as [|g]; cbn [nth_error firstn]; [destruct D4 as (-> & _); [lia|reflexivity]|reflexivity].
  - unfold conv_padding. destruct g as [|[|g]]; cbn [nth_error firstn]; try (rewrite D5 by lia; eexists; split; [reflexivity|exact CP]).
    destruct p as [ph pw| |]; [eexists; split; [reflexivity|reflexivity]|congruence|eexists; split; [reflexivity|reflexivity]].
  - unfold conv_dilation. destruct g as [|[|[|g]]]; cbn [nth_error firstn]; try (destruct D6 as (-> & _); [lia|reflexivity]). reflexivity.
  - unfold conv_group. destruct g as [|[|[|[|g]]]]; reflexivity.
  - eexists. reflexivity.
Qed.
Lemma window_facts n t k s d : 0 < n -> windowed n (2 * t) k s d = true ->
  1 <= k /\ 1 <= s /\ 1 <= d /\ 0 <= t /\ 1 <= count n (2 * t) k s d /\ count n (2 * t) k s d = conv_output_size n t t k s d.
Proof.
  unfold windowed. rewrite !andb_true_iff, !Z.leb_le. intros Hn ((((H1 & H2) & H3) & H4) & H5). repeat (split; [lia|]). split.
  - unfold count. pose proof (Z.div_pos (last_start n (2 * t) k d) s ltac:(lia) ltac:(lia)). lia.
  - unfold count, conv_output_size, last_start. f_equal. f_equal. lia.
Qed.
Lemma pixel_padded H W x c i j : zero_padded (N := Rnum) H W x c i j = pixel H W x c i j.
Proof. reflexivity. Qed.
Lemma conv_meaning ninf q impl C H W f OH OW kh kw s d top left bottom right w b bias x :
  0 < C -> 0 < f -> 0 <= OH -> 0 <= OW -> 1 <= kh -> 1 <= kw -> (forall k, 0 <= k < f -> nthZ 0%R b k = or_zero bias k) ->
  meaning Rnum ninf q (plain (KConv Rnum impl (mkConv C H W f OH OW kh kw s d top left bottom right) w b)) [x] =
  conv_value f C kh kw w bias s s top left d d 1 OH OW H W x.
Proof.
  intros HC HF HOH HOW Hkh Hkw HB. unfold meaning, meaning_with, convolution, conv_value. cbn [plain lkind lact nf oh ow ic ih iw Conv.kh Conv.kw strides dilation pt pl Activation.compute].
  rewrite map_id. apply tab3_ext; try lia. intros k i j Hk Hi Hj. rewrite <- HB by lia. cbn [nadd Rnum]. f_equal. rewrite (nsum3_nest Rnum KerasProofs.Rring) by lia.
  rewrite Z.div_1_r, (Z.div_small k f) by lia. cbn [Z.mul Z.add].
  apply nsum_ext. intros p Hp. apply nsum_ext. intros u Hu. apply nsum_ext. intros v Hv. cbn [nmul Rnum]. f_equal.
  unfold at3, idx3. f_equal. lia.
Qed.
Lemma conv_created impl ninf q f c kh kw w b sh sw p dh dw g given ins out : let o := Conv2d f c kh kw w b sh sw p dh dw g in
  Forall positive_dims ins -> importable o given ins -> out_dims o ins = Some out -> exists l, created impl ninf q o given ins out l.
Proof.
  intros o; subst o; intros PD (DF & -> & -> & -> & -> & NS & G & HF & Hw & Hb) EO. rename kw into k, sw into s, dw into d.
  destruct ins as [|ds [|? ?]]; try discriminate; [|destruct ds as [|? [|? [|? [|? ?]]]]; discriminate]. destruct ds as [|C [|H [|W [|? ?]]]]; try discriminate.
  cbn [out_dims] in EO. rewrite Z.mul_1_r in EO. destruct (pads_total p k d NS) as (T1 & T2 & B1 & B2). rewrite T1, T2 in EO.
  destruct (Z.eqb_spec c C) as [->|]; [|discriminate]. destruct (windowed H (2 * top_of p) k s d) eqn:E1; [|discriminate]. destruct (windowed W (2 * left_of p) k s d) eqn:E2; [|discriminate].
  cbn [andb] in EO. apply some_inj in EO. subst out. inversion PD as [|? ? P1 _]; subst. inversion P1 as [|? ? HC P2]; subst. inversion P2 as [|? ? HH P3]; subst. inversion P3 as [|? ? HW _]; subst. clear PD P1 P2 P3.
  destruct (window_facts _ _ _ _ _ HH E1) as (K1 & K2 & K3 & K4 & K5 & K6). destruct (window_facts _ _ _ _ _ HW E2) as (_ & _ & _ & L4 & L5 & L6).
  set (OH := count H (2 * top_of p) k s d) in *. set (OW := count W (2 * left_of p) k s d) in *.
  set (bias := match b with Some v => v | None => tab f (fun _ => 0%R) end).
  assert (ZB : zlen bias = f) by (subst bias; destruct b; [exact Hb|apply zlen_tab; lia]).
  assert (VB : forall j, 0 <= j < f -> nthZ 0%R bias j = or_zero b j) by (intros j Hj; subst bias; destruct b; [reflexivity|cbn [or_zero]; rewrite nthZ_tab by lia; reflexivity]).
  exists (plain (KConv Rnum impl (mkConv C H W f OH OW k k s d (top_of p) (left_of p) (top_of p) (left_of p)) w bias)).
  constructor; cbn [lkind plain lact made_kind out_size out_channels nf oh ow].
  - intros st nm nms vs F2 FD _. destruct (F2_one_r _ _ _ FD) as (v0 & -> & E0). destruct (F2_one_r _ _ _ F2) as (a & -> & E3). clear F2 FD.
    destruct E0 as [E0|E0]; [|unfold zlen in E0; cbn in E0; lia].
    destruct (conv_arguments f C k w b s p d a given DF NS G) as (A1 & (pad & A2 & A3) & A4 & A5 & r & A6).
    unfold visit, exported. cbn [c_target c_name c_args n_op n_name n_inputs n_given]. set (args := firstn given _) in *.
    assert (ET : contains "linear" (target (Conv2d f C k k w b s s p d d 1)) = false /\ contains "relu" (target (Conv2d f C k k w b s s p d d 1)) = false /\
      contains "clamp" (target (Conv2d f C k k w b s s p d d 1)) = false /\ contains "conv2d" (target (Conv2d f C k k w b s s p d d 1)) = true) by (destruct p; repeat split; reflexivity).
    destruct ET as (-> & -> & -> & ->). unfold import_conv. rewrite A1, A2, A4, A5. cbn [bind]. rewrite A6. cbn [nth_error bind held]. rewrite E3. cbn [bind]. rewrite E0. cbn [chw bind].
    assert (EB : match param [f] b with AParam _ v => Some v | ANone => Some (tab f (fun _ => 0%R)) | _ => None end = Some bias) by (subst bias; destruct b; reflexivity).
    rewrite EB. cbn [bind]. rewrite A3. rewrite size3, Z.div_1_r, ZB, <- K6, <- L6, !Z.eqb_refl. cbn [andb bind]. reflexivity.
  - apply positive3; lia.
  - reflexivity.
  - reflexivity.
  - rewrite size3. reflexivity.
  - reflexivity.
  - eexists _, _, _. cbn [lkind plain]. split; [reflexivity|]. cbn [nf oh ow ic Conv.kh Conv.kw]. split; [reflexivity|]. repeat (split; [lia|]). split; assumption.
  - exact I.
  - intros ts EI SZ. destruct (one_tensor _ _ EI) as (x & ->). clear EI. cbn [map vals result dims]. rewrite B1, B2, size3. split.
    + unfold conv_value. apply zlen_tab3; lia.
    + apply conv_meaning; try lia. exact VB.
  - intros -> _. split; [exact KerasOps.linear_ok|]. cbn [lkind map plain ic ih iw]. rewrite size3. split; [reflexivity|]. unfold conv_supported. cbn [ic ih iw nf oh ow Conv.kh Conv.kw].
    repeat (split; [lia|]). split; [exact Hw|]. split; [exact ZB|exact KerasOps.zero_product_R].
Qed.

(** ** Pooling *)
Lemma window_below P C H W x c i j : p_C P = C -> p_IH P = H -> p_IW P = W ->
  window (PropertiesPooling.image 0%R P x c) H W (p_size P) (p_stride P) (p_top P) (p_left P) i j =
  below H W x (p_size P) (p_size P) (p_stride P) (p_stride P) (p_top P) (p_left P) 1 1 c i j.
Proof.
  intros EC EH EW. unfold window, below, zrange, upto. apply flat_map_ext. intros a. apply flat_map_ext. intros b. cbv zeta. rewrite !Z.mul_1_r.
  unfold PropertiesPooling.image. rewrite EH, EW. reflexivity.
Qed.
Lemma max_pool_meaning ninf q P C H W x : pool_accepts P -> p_C P = C -> p_IH P = H -> p_IW P = W ->
  meaning Rnum ninf q (plain (KMaxPool Rnum P)) [x] =
  tab3 C (p_OH P) (p_OW P) (fun c i j => maximum (below H W x (p_size P) (p_size P) (p_stride P) (p_stride P) (p_top P) (p_left P) 1 1 c i j)).
Proof.
  intros A EC EH EW. pose proof A as (HC & HIH & HIW & Hz & Hs & Ht & Hl & Hb & Hr & E1 & E2 & HOH & HOW).
  unfold meaning, meaning_with. cbn [plain lkind lact Activation.compute]. rewrite EC. apply tab3_ext; try lia. intros c i j Hc Hi Hj.
  pose proof (window_nonempty (PropertiesPooling.image 0%R P x c) P i j A Hi Hj) as NE. rewrite EH, EW in NE |- *.
  change (n0 Rnum) with 0%R. rewrite (window_below P C) in NE |- * by assumption.
  unfold np_amax, maximum. destruct (below _ _ _ _ _ _ _ _ _ _ _ _ _ _) as [|v l]; [congruence|]. apply KerasProofs.fold_ext. exact KerasProofs.max_eq.
Qed.
Lemma max_pool_arguments k s ph pw a given : let o := MaxPool2d k k s s ph pw 1 1 false in
  defaults_omitted o given -> (3 <= given)%nat ->
  let args := firstn given (arguments o [a]) in
  (exists r, args = ANode a :: r) /\ first_or_one args 1 = Some k /\ first_or_one args 2 = Some s /\
  match nth_error args 3 with None => Some (Explicit 0 0 0 0) | Some (AInts [ph; pw]) => Some (Explicit ph pw ph pw) | Some _ => None end = Some (Explicit ph pw ph pw) /\
  exists d, first_or_one args 4 = Some d.
Proof.
  intros o; subst o. cbn [defaults_omitted arguments map app]. intros (_ & _ & D4 & _ & _) G. cbv zeta.
  destruct given as [|[|[|g]]]; try lia. cbn [firstn]. split; [eexists; reflexivity|]. split; [reflexivity|]. split; [reflexivity|]. split.
  - destruct g as [|g]; cbn [nth_error firstn]; [destruct D4 as (-> & ->); [lia|]; reflexivity|reflexivity].
  - destruct g as [|[|g]]; eexists; reflexivity.
Qed.
Lemma max_created impl ninf q kh kw sh sw ph pw dh dw ceil given ins out : let o := MaxPool2d kh kw sh sw ph pw dh dw ceil in
  Forall positive_dims ins -> importable o given ins -> out_dims o ins = Some out -> exists l, created impl ninf q o given ins out l.
Proof.
  intros o; subst o; intros PD (DF & -> & -> & -> & -> & -> & G) EO. rename kw into k, sw into s.
  destruct ins as [|ds [|? ?]]; try discriminate; [|destruct ds as [|? [|? [|? [|? ?]]]]; discriminate]. destruct ds as [|C [|H [|W [|? ?]]]]; try discriminate.
  cbn [out_dims] in EO. destruct (windowed H (2 * ph) k s 1) eqn:E1; [|discriminate]. destruct (windowed W (2 * pw) k s 1) eqn:E2; [|discriminate].
  destruct (Z.leb_spec (2 * ph) k); [|discriminate]. destruct (Z.leb_spec (2 * pw) k); [|discriminate]. cbn [andb pool_count] in EO. apply some_inj in EO. subst out.
  inversion PD as [|? ? P1 _]; subst. inversion P1 as [|? ? HC P2]; subst. inversion P2 as [|? ? HH P3]; subst. inversion P3 as [|? ? HW _]; subst. clear PD P1 P2 P3.
  destruct (window_facts _ _ _ _ _ HH E1) as (K1 & K2 & K3 & K4 & K5 & K6). destruct (window_facts _ _ _ _ _ HW E2) as (_ & _ & _ & L4 & L5 & L6).
  set (OH := count H (2 * ph) k s 1) in *. set (OW := count W (2 * pw) k s 1) in *. unfold conv_output_size in K6, L6.
  assert (F1 : OH = (H + ph + ph - k) / s + 1) by (rewrite K6; do 2 f_equal; lia). assert (F2 : OW = (W + pw + pw - k) / s + 1) by (rewrite L6; do 2 f_equal; lia).
  set (P := mkPool C H W OH OW k s ph pw ph pw).
  assert (PA : pool_accepts P) by (unfold pool_accepts; cbn [P p_C p_IH p_IW p_size p_stride p_top p_left p_bottom p_right p_OH p_OW]; repeat (split; [first [exact F1|exact F2|lia]|]); lia).
  exists (plain (KMaxPool Rnum P)). constructor; cbn [lkind plain lact made_kind out_size out_channels p_C p_OH p_OW P].
  - intros st nm nms vs F2' FD _. destruct (F2_one_r _ _ _ FD) as (v0 & -> & E0). destruct (F2_one_r _ _ _ F2') as (a & -> & E3). clear F2' FD.
    destruct E0 as [E0|E0]; [|unfold zlen in E0; cbn in E0; lia].
    destruct (max_pool_arguments k s ph pw a given DF G) as ((r & A1) & A2 & A3 & A4 & d & A5).
    unfold visit, exported. cbn [c_target c_name c_args n_op n_name n_inputs n_given target]. set (args := firstn given _) in *. dispatch.
    unfold import_max_pool. rewrite A2, A3. cbn [bind]. rewrite A4. cbn [bind]. rewrite A5. cbn [bind]. rewrite A1. cbn [nth_error bind held]. rewrite E3. cbn [bind]. rewrite E0.
    unfold pool_of. cbn [chw bind compute_padding]. rewrite size3, <- F1, <- F2, !Z.eqb_refl. cbn [andb bind]. reflexivity.
  - apply positive3; lia.
  - reflexivity.
  - reflexivity.
  - rewrite size3. reflexivity.
  - reflexivity.
  - exact I.
  - exact I.
  - intros ts EI SZ. destruct (one_tensor _ _ EI) as (x & ->). clear EI. cbn [map vals result dims]. rewrite size3. split; [apply zlen_tab3; lia|].
    etransitivity; [apply max_pool_meaning with (C := C) (H := H) (W := W); [exact PA|reflexivity..]|]. reflexivity.
  - intros _ GE. split; [exact KerasOps.linear_ok|]. cbn [lkind map plain p_C p_IH p_IW P]. rewrite size3. split; [reflexivity|]. unfold pool_supported. cbn [p_C p_OH p_OW p_top p_left P].
    cbn [generable] in GE. lia.
Qed.

Lemma filter_all {A} (f : A -> bool) l : (forall a, In a l -> f a = true) -> filter f l = l.
Proof. intros E. induction l as [|a l IH]; [reflexivity|]. cbn [filter]. rewrite E by (left; reflexivity). f_equal. apply IH. intros b Hb. apply E. right. exact Hb. Qed.
Lemma in_upto n k : 0 <= n -> In k (upto n) -> 0 <= k < n.
Proof.
  intros Hn H. unfold upto, tab in H. apply in_map_iff in H. destruct H as (j & <- & Hj). apply in_seq in Hj. lia.
Qed.
Lemma whole_cell n : 0 < n -> cell n 1 0 = upto n.
Proof.
  intros Hn. unfold cell. apply filter_all. intros a Ha. apply in_upto in Ha; [|lia]. rewrite !Z.div_1_r. apply andb_true_iff. split; [apply Z.leb_le; lia|apply Z.ltb_lt; lia].
Qed.
Lemma flat_map_singletons {A B} (f : A -> B) l : flat_map (fun a => [f a]) l = map f l.
Proof. induction l as [|a l IH]; [reflexivity|]. cbn [flat_map map app]. rewrite IH. reflexivity. Qed.
Lemma adaptive_created impl ninf q oh ow given ins out : let o := AdaptiveAvgPool2d oh ow in
  Forall positive_dims ins -> importable o given ins -> out_dims o ins = Some out -> exists l, created impl ninf q o given ins out l.
Proof.
  intros o; subst o; intros PD (DF & -> & -> & C & H & ->) EO. cbn [out_dims] in EO. change (1 <=? 1) with true in EO. cbn [andb] in EO. apply some_inj in EO. subst out.
  inversion PD as [|? ? P1 _]; subst. inversion P1 as [|? ? HC P2]; subst. inversion P2 as [|? ? HH _]; subst. clear PD P1 P2.
  assert (F1 : 1 = (H + 0 + 0 - H) / 1 + 1) by (rewrite Z.div_1_r; lia).
  set (P := mkPool C H H 1 1 H 1 0 0 0 0).
  assert (PA : pool_accepts P) by (unfold pool_accepts; cbn [P p_C p_IH p_IW p_size p_stride p_top p_left p_bottom p_right p_OH p_OW]; repeat (split; [first [exact F1|lia]|]); lia).
  exists (plain (KAvgPool Rnum P)). constructor; cbn [lkind plain lact made_kind out_size out_channels p_C p_OH p_OW P].
  - intros st nm nms vs F2' FD _. destruct (F2_one_r _ _ _ FD) as (v0 & -> & E0). destruct (F2_one_r _ _ _ F2') as (a & -> & E3). clear F2' FD.
    destruct E0 as [E0|E0]; [|unfold zlen in E0; cbn in E0; lia]. cbn [defaults_omitted] in DF. destruct given as [|g]; [lia|].
    unfold visit, exported. cbn [c_target c_name c_args n_op n_name n_inputs n_given target arguments map app firstn nth_error bind held]. dispatch. rewrite E3. cbn [bind].
    unfold import_adaptive. rewrite E0. cbn [last]. unfold pool_of. cbn [chw bind compute_padding]. rewrite size3, <- F1, !Z.eqb_refl. cbn [andb bind]. reflexivity.
  - apply positive3; lia.
  - reflexivity.
  - reflexivity.
  - rewrite size3. reflexivity.
  - reflexivity.
  - exact I.
  - exact I.
  - intros ts EI SZ. destruct (one_tensor _ _ EI) as (x & ->). clear EI. cbn [map vals result dims]. rewrite size3. unfold adaptive_value. split; [apply zlen_tab3; lia|].
    unfold meaning, meaning_with. cbn [plain lkind lact Activation.compute p_C p_OH p_OW P]. apply tab3_ext; try lia. intros c i j Hc Hi Hj.
    assert (i = 0) by lia. assert (j = 0) by lia. subst i j. rewrite whole_cell by lia.
    cbn [p_IH p_IW p_size p_stride p_top p_left P]. change (n0 Rnum) with 0%R.
    assert (EW : window (PropertiesPooling.image 0%R P x c) H H H 1 0 0 0 0 = flat_map (fun a => map (fun b => at3 0%R H H x c a b) (upto H)) (upto H)).
    { unfold window, zrange. apply KerasProofs.flat_map_ext_in. intros a Ha. rewrite <- flat_map_singletons. apply KerasProofs.flat_map_ext_in. intros b Hb.
      apply in_upto in Ha; [|lia]. apply in_upto in Hb; [|lia]. cbv zeta. replace (0 * 1 + a - 0) with a by lia. replace (0 * 1 + b - 0) with b by lia.
      destruct (Z.leb_spec 0 a), (Z.ltb_spec a H), (Z.leb_spec 0 b), (Z.ltb_spec b H); try lia. reflexivity. }
    etransitivity; [apply (f_equal (np_mean Rnum)); exact EW|]. unfold np_mean, average. cbn [ndiv nofZ Rnum nadd n0]. f_equal. rewrite KerasProofs.sum_fold. unfold KerasSpec.sum. lra.
  - intros _ GE. split; [exact KerasOps.linear_ok|]. cbn [lkind map plain p_C p_IH p_IW P]. rewrite size3. split; [reflexivity|]. unfold pool_supported. cbn [p_C p_OH p_OW p_top p_left P]. lia.
Qed.
