(** * Properties C58 and C59: ONNX Conv and pooling nodes are imported with
    their ONNX meaning (OnnxWindowSpec.v). *)
From Coq Require Import ZArith List Lia Bool.
Import ListNotations.
Open Scope Z_scope.
From Verif Require Import CMem Tensor Num NumInst Padding Conv ConvProofs PropertiesConv Pooling PoolingProofs PropertiesPooling PropertiesMovement
  OnnxSpec OnnxOps OnnxOpsProofs OnnxReduceProofs Activation OnnxWindowSpec OnnxWindow.

Lemma fold_tab (N : num) n (f : Z -> T N) : 0 <= n -> fold_left (nadd N) (tab n f) (n0 N) = nsum N n f.
Proof.
  revert n. apply for_ind.
  - rewrite tab_0, nsum_0 by lia. reflexivity.
  - intros n Hn IH. rewrite tab_succ, nsum_succ, fold_left_app, IH by exact Hn. reflexivity.
Qed.
Lemma sum3_eq (N : num) A B C t : 0 <= A -> 0 <= B -> 0 <= C -> sum3 N A B C t = nsum3 A B C t.
Proof. intros. unfold sum3, nsum3, tab3. apply fold_tab. nia. Qed.

(** Dilation 1: the tool's SAME padding is ONNX's. *)
Lemma same_total_eq n k s : 0 < n -> 1 <= k -> 0 < s -> same_total n k s 1 = pad_along n k s 1.
Proof.
  intros Hn Hk Hs. unfold same_total, pad_along. replace (k - (k - 1) * (1 - 1)) with k by ring.
  pose proof (Z.div_mod n s ltac:(lia)) as E. pose proof (Z.mod_pos_bound n s Hs) as B.
  set (q := n / s) in *. set (r := n mod s) in *. destruct (Z.eqb_spec r 0) as [Er|Er].
  - replace (- n / s) with (- q); [|apply (Z.div_unique_pos _ _ _ 0); nia]. rewrite Z.max_comm. f_equal. nia.
  - replace (- n / s) with (- (q + 1)); [|apply (Z.div_unique_pos _ _ _ (s - r)); nia]. rewrite Z.max_comm. f_equal. nia.
Qed.
Definition explicit_pads (n : window_node) : list Z := or_default (w_pads n) [0; 0; 0; 0].
(** What the constructors compute is what ONNX asks for. *)
Lemma padding_eq n t l b r H W kh kw s d :
  explicit_pads n = [t; l; b; r] -> (w_auto n = NotSet \/ w_auto n = AutoValid \/ d = 1) ->
  0 < H -> 0 < W -> 1 <= kh -> 1 <= kw -> 0 < s ->
  exists p, import_padding n = Some p /\
    compute_padding p H W kh kw s d =
    (snd (onnx_pads (w_auto n) l r W kw s d), fst (onnx_pads (w_auto n) l r W kw s d),
     snd (onnx_pads (w_auto n) t b H kh s d), fst (onnx_pads (w_auto n) t b H kh s d)).
Proof.
  intros EP HA HH HW Hkh Hkw Hs. unfold import_padding, explicit_pads in *. destruct (w_auto n) eqn:EA.
  - destruct (w_pads n) as [l0|]; cbn [or_default] in EP.
    + subst l0. eexists. split; reflexivity.
    + injection EP as <- <- <- <-. eexists. split; reflexivity.
  - eexists. split; reflexivity.
  - destruct HA as [HA|[HA| ->]]; try discriminate. eexists. split; [reflexivity|]. cbn [compute_padding onnx_pads fst snd].
    rewrite !same_total_eq by assumption. reflexivity.
  - destruct HA as [HA|[HA| ->]]; try discriminate. eexists. split; [reflexivity|]. cbn [compute_padding onnx_pads fst snd].
    rewrite !same_total_eq by assumption. reflexivity.
Qed.

(** ** C58.  One group, the same stride and the same dilation in both directions
    (with SAME padding, dilation 1): the import succeeds and the generated code
    computes the ONNX convolution. *)
Theorem C58_conv : forall (N : num), zero_product_law N -> forall n raw_in raw_out M C H W kh kw s d t l b r OH OW bias w x,
  one_sample raw_in -> one_sample raw_out ->
  run_dims raw_in = [1; C; H; W] -> run_dims raw_out = [1; M; OH; OW] ->
  w_kernel n = Some [kh; kw] -> or_default (w_group n) 1 = 1 ->
  or_default (w_strides n) [1; 1] = [s; s] -> or_default (w_dilations n) [1; 1] = [d; d] ->
  explicit_pads n = [t; l; b; r] -> (w_auto n = NotSet \/ w_auto n = AutoValid \/ d = 1) ->
  1 <= kh -> 1 <= kw -> 0 < s ->
  let ph := onnx_pads (w_auto n) t b H kh s d in
  let pw := onnx_pads (w_auto n) l r W kw s d in
  OH = onnx_length H ph kh s d -> OW = onnx_length W pw kw s d ->
  (forall bs, bias = Some bs -> zlen bs = M) -> zlen w = M * C * kh * kw -> zlen x = C * H * W ->
  exists c bs, create_conv (n0 N) n raw_in raw_out [M; C; kh; kw] bias = Some (c, bs) /\
    forall src out act, src <> Temp -> out <> Temp ->
    exists y, convolved N 1 M C H W kh kw s s d d (fst ph) (fst pw) OH OW w (or_default bias (repeat (n0 N) (Z.to_nat M))) x y /\
      layer_ok (conv6_c N src out c w bs act) [(src, x)] out (zlen y) (zlen y) (map act y).
Proof.
  intros N ZP n raw_in raw_out M C H W kh kw s d t l b r OH OW bias w x HS HSO EI EO EK EG EST ED EPD HA Hkh Hkw Hs ph pw EOH EOW HB Hw Hx.
  assert (G1 : get_shape raw_in = [1; C; H; W]).
  { destruct HS as (HL & HP & _). rewrite get_shape_eq by assumption. pose proof (run_dims_length raw_in) as L. rewrite EI in *. cbn in L. rewrite <- L. reflexivity. }
  assert (G2 : get_shape raw_out = [1; M; OH; OW]).
  { destruct HSO as (HL & HP & _). rewrite get_shape_eq by assumption. pose proof (run_dims_length raw_out) as L. rewrite EO in *. cbn in L. rewrite <- L. reflexivity. }
  assert (PI : Forall (fun n => 0 < n) [1; C; H; W]) by (rewrite <- EI; apply run_dims_pos; apply HS).
  assert (PO : Forall (fun n => 0 < n) [1; M; OH; OW]) by (rewrite <- EO; apply run_dims_pos; apply HSO).
  inversion PI as [|? ? _ PI1]; inversion PI1 as [|? ? HC PI2]; inversion PI2 as [|? ? HH PI3]; inversion PI3 as [|? ? HW _]; subst; clear PI PI1 PI2 PI3.
  inversion PO as [|? ? _ PO1]; inversion PO1 as [|? ? HM PO2]; inversion PO2 as [|? ? HOH PO3]; inversion PO3 as [|? ? HOW _]; subst; clear PO PO1 PO2 PO3.
  destruct (padding_eq n t l b r H W kh kw s d EPD HA HH HW Hkh Hkw Hs) as (p & EP & EC). fold ph pw in EC.
  set (OH := onnx_length H ph kh s d) in *. set (OW := onnx_length W pw kw s d) in *.
  set (bs := or_default bias (repeat (n0 N) (Z.to_nat M))).
  assert (ZB : zlen bs = M).
  { unfold bs. destruct bias as [bs0|]; cbn [or_default]; [apply HB; reflexivity|]. unfold zlen. rewrite repeat_length. lia. }
  assert (E1 : conv_output_size H (fst ph) (snd ph) kh s d = OH).
  { unfold conv_output_size, OH, onnx_length. f_equal. f_equal. ring. }
  assert (E2 : conv_output_size W (fst pw) (snd pw) kw s d = OW).
  { unfold conv_output_size, OW, onnx_length. f_equal. f_equal. ring. }
  exists (mkConv C H W M OH OW kh kw s d (fst ph) (fst pw) (snd ph) (snd pw)), bs. split.
  - unfold create_conv. rewrite G1, G2, EP, EST, EK. cbn [dims3 bind]. change (rdl [s; s] 0) with (Some s). change (rdl [kh; kw] 0) with (Some kh).
    change (rdl [kh; kw] 1) with (Some kw). change (rdl [M; C; kh; kw] 0) with (Some M). cbn [bind].
    assert (ED' : rdl (or_default (w_dilations n) [1]) 0 = Some d).
    { destruct (w_dilations n); cbn [or_default] in *; [rewrite ED; reflexivity|]. injection ED as <-. reflexivity. }
    rewrite ED'. cbn [bind]. rewrite EC, find_size4, Z.eqb_refl by assumption. unfold same_list.
    destruct (list_eq_dec Z.eq_dec [M; C; kh; kw] [M; C; kh; kw]) as [_|NE]; [|congruence]. fold bs. rewrite ZB, E1, E2, !Z.eqb_refl. reflexivity.
  - intros src out act Hsrc Hout.
    set (c := mkConv C H W M OH OW kh kw s d (fst ph) (fst pw) (snd ph) (snd pw)).
    exists (convolution N c w bs (fun v => v) x).
    assert (ZY : zlen (convolution N c w bs (fun v => v) x) = M * OH * OW).
    { unfold convolution. rewrite zlen_map. apply zlen_tab3; cbn; lia. }
    split.
    + split; [exact ZY|]. intros m i j Hm Hi Hj. unfold convolution. rewrite map_id. unfold c at 1 2 3; cbn [Conv.nf Conv.oh Conv.ow]. rewrite at3_tab3 by assumption.
      rewrite !Z.div_1_r. rewrite sum3_eq by lia. f_equal. unfold nsum3. apply nsum_ext. intros q Hq. unfold c; cbn [Conv.ic Conv.kh Conv.kw Conv.ih Conv.iw Conv.strides Conv.dilation Conv.pt Conv.pl].
      f_equal.
      * rewrite (Z.div_small m M) by exact Hm. reflexivity.
      * unfold at3, idx3. f_equal. cbn [Conv.kh Conv.kw]. ring.
    + rewrite ZY. pose proof (C14_six_loops N ZP src out c w bs act x Hout Hsrc) as G.
      assert (EM : convolution N c w bs act x = map act (convolution N c w bs (fun v => v) x)).
      { unfold convolution. rewrite map_id. reflexivity. }
      rewrite <- EM. apply G. constructor; cbn; try lia.
Qed.
Print Assumptions C58_conv.

(** A 3x3 convolution of stride 2 with SAME padding, without bias. *)
Definition ex_conv_node := mkNode (Some [3; 3]) (Some [2; 2]) None None AutoUpper None.
Example C58_example :
  onnx_pads AutoUpper 0 0 6 3 2 1 = (0, 1) /\ onnx_length 6 (0, 1) 3 2 1 = 3 /\
  create_conv 0 ex_conv_node [0; 2; 6; 5] [0; 4; 3; 3] [4; 2; 3; 3] None
  = Some (mkConv 2 6 5 4 3 3 3 3 2 1 0 1 1 1, [0; 0; 0; 0]).
Proof. repeat split. Qed.

(** Grouped convolutions (depth-wise ones included) are all rejected, whatever
    the value of the group attribute: the weights have fewer channels than the
    image. *)
Theorem C58_group_refuted : forall (V : Type) (z : V) n raw_in raw_out M C Cg H W kh kw bias,
  one_sample raw_in -> run_dims raw_in = [1; C; H; W] -> Cg <> C ->
  create_conv z n raw_in raw_out [M; Cg; kh; kw] bias = None.
Proof.
  intros V z n raw_in raw_out M C Cg H W kh kw bias HS EI NE.
  assert (G1 : get_shape raw_in = [1; C; H; W]).
  { destruct HS as (HL & HP & _). rewrite get_shape_eq by assumption. pose proof (run_dims_length raw_in) as L. rewrite EI in *. cbn in L. rewrite <- L. reflexivity. }
  unfold create_conv. rewrite G1. cbn [dims3 bind]. destruct (dims3 (get_shape raw_out)) as [[[OC OH] OW]|]; [|reflexivity]. cbn [bind].
  destruct (import_padding n) as [p|]; [|reflexivity]. cbn [bind].
  destruct (rdl (or_default (w_strides n) [1; 1]) 0) as [s|]; [|reflexivity]. cbn [bind].
  destruct (w_kernel n) as [kernel|]; [|reflexivity]. cbn [bind].
  destruct (rdl kernel 0) as [kh'|]; [|reflexivity]. destruct (rdl kernel 1) as [kw'|]; [|reflexivity]. cbn [bind].
  destruct (rdl (or_default (w_dilations n) [1]) 0) as [d|]; [|reflexivity]. cbn [bind]. change (rdl [M; Cg; kh; kw] 0) with (Some M). cbn [bind].
  destruct (compute_padding p H W kh' kw' s d) as [[[pr' pl'] pb'] pt'].
  replace (same_list [M; Cg; kh; kw] [M; C; kh'; kw']) with false; [rewrite andb_false_r; reflexivity|].
  unfold same_list. destruct (list_eq_dec _ _ _) as [E|]; [congruence|reflexivity].
Qed.
Print Assumptions C58_group_refuted.

(** The optional kernel_shape attribute is required. *)
Theorem C58_kernel_shape_refuted : forall (V : Type) (z : V) strides dil group a pads raw_in raw_out wdims bias,
  create_conv z (mkNode None strides dil group a pads) raw_in raw_out wdims bias = None.
Proof.
  intros. unfold create_conv. destruct (dims3 (get_shape raw_in)) as [[[C H] W]|]; [|reflexivity]. cbn [bind].
  destruct (dims3 (get_shape raw_out)) as [[[OC OH] OW]|]; [|reflexivity]. cbn [bind].
  destruct (import_padding _) as [p|]; [|reflexivity]. cbn [bind].
  destruct (rdl _ 0) as [s|]; reflexivity.
Qed.
Print Assumptions C58_kernel_shape_refuted.

(** Two different strides: the second is ignored, silently when the output width
    is the same.  A 1x2 kernel with strides (2, 3) on one row of five pixels. *)
Theorem C58_strides_refuted : exists n c (w b x : list Z) y,
  w_strides n = Some [2; 3] /\ onnx_length 5 (0, 0) 2 3 1 = 2 /\
  create_conv 0 n [1; 1; 1; 5] [1; 1; 1; 2] [1; 1; 1; 2] None = Some (c, b) /\
  result_of (conv6_c Znum (Out 0) (Out 1) c w b (fun v => v) (mem_of [(Out 0, x); (Out 1, [0; 0]); (Temp, [0; 0])])) (Out 1) 2 = Some y /\
  zlen x = 5 /\ ~ convolved Znum 1 1 1 1 5 1 2 2 3 1 1 0 0 1 2 w [0] x y.
Proof.
  exists (mkNode (Some [1; 2]) (Some [2; 3]) None None NotSet None). eexists. exists [1; 0]. eexists. exists [1; 2; 3; 4; 5]. eexists.
  split; [reflexivity|]. split; [reflexivity|]. split; [reflexivity|]. split; [vm_compute; reflexivity|]. split; [reflexivity|].
  intros (_ & G). specialize (G 0 0 1 ltac:(lia) ltac:(lia) ltac:(lia)). vm_compute in G. discriminate.
Qed.
Print Assumptions C58_strides_refuted.
(** Two different dilations: same thing. *)
Theorem C58_dilations_refuted : exists n c (w b x : list Z) y,
  w_dilations n = Some [1; 2] /\ onnx_length 3 (0, 0) 2 2 2 = 1 /\
  create_conv 0 n [1; 1; 1; 3] [1; 1; 1; 1] [1; 1; 1; 2] None = Some (c, b) /\
  result_of (conv6_c Znum (Out 0) (Out 1) c w b (fun v => v) (mem_of [(Out 0, x); (Out 1, [0; 0]); (Temp, [0; 0])])) (Out 1) 1 = Some y /\
  zlen x = 3 /\ ~ convolved Znum 1 1 1 1 3 1 2 2 2 1 2 0 0 1 1 w [0] x y.
Proof.
  exists (mkNode (Some [1; 2]) (Some [2; 2]) (Some [1; 2]) None NotSet None). eexists. exists [0; 1]. eexists. exists [1; 2; 3]. eexists.
  split; [reflexivity|]. split; [reflexivity|]. split; [reflexivity|]. split; [vm_compute; reflexivity|]. split; [reflexivity|].
  intros (_ & G). specialize (G 0 0 0 ltac:(lia) ltac:(lia) ltac:(lia)). vm_compute in G. discriminate.
Qed.
Print Assumptions C58_dilations_refuted.
(** SAME padding with a dilation: the padding is computed for a kernel that
    shrinks with the dilation, so that the import fails. *)
Theorem C58_same_dilation_refuted : forall (z : Z) bias,
  onnx_length 10 (onnx_pads AutoUpper 0 0 10 3 1 2) 3 1 2 = 10 /\
  create_conv z (mkNode (Some [3; 3]) None (Some [2; 2]) None AutoUpper None) [1; 1; 10; 10] [1; 1; 10; 10] [1; 1; 3; 3] bias = None.
Proof.
  intros z bias. split; [reflexivity|]. destruct bias as [bs|]; [|reflexivity].
  unfold create_conv. cbv -[zlen andb Z.eqb]. destruct (zlen bs =? 1); reflexivity.
Qed.
Print Assumptions C58_same_dilation_refuted.

(** ** C59. *)
Lemma cells_window {V} (z : V) H W x k s top left c i j :
  cells z H W x k k s s 1 1 top left c i j = window (fun a b => at3 z H W x c a b) H W k s top left i j.
Proof.
  unfold cells, window. apply flat_map_ext. intros h. apply flat_map_ext. intros q. rewrite !Z.mul_1_r. reflexivity.
Qed.
Lemma pool_padding n t l b r H W k s :
  explicit_pads n = [t; l; b; r] -> 0 < H -> 0 < W -> 0 < k -> 0 < s ->
  (w_auto n = NotSet -> 0 <= t < k /\ 0 <= l < k /\ 0 <= b < k /\ 0 <= r < k) ->
  let ph := onnx_pads (w_auto n) t b H k s 1 in let pw := onnx_pads (w_auto n) l r W k s 1 in
  0 <= fst ph < k /\ 0 <= fst pw < k /\ 0 <= snd ph < k /\ 0 <= snd pw < k.
Proof.
  intros EP HH HW Hk Hs HN. cbv zeta.
  assert (B : forall n, 0 < n -> 0 <= same_total n k s 1 < k).
  { intros m Hm. unfold same_total. assert ((- (- m / s) - 1) * s < m); [|lia].
    pose proof (Z.mul_div_le (- m) s Hs). pose proof (Z.mod_pos_bound (- m) s Hs). pose proof (Z.div_mod (- m) s ltac:(lia)). nia. }
  pose proof (B H HH) as BH. pose proof (B W HW) as BW.
  assert (D : forall m, 0 <= m < k -> 0 <= m / 2 < k /\ 0 <= m - m / 2 < k).
  { intros m Hm. pose proof (Z.div_mod m 2 ltac:(lia)). pose proof (Z.mod_pos_bound m 2 ltac:(lia)). lia. }
  pose proof (D _ BH). pose proof (D _ BW).
  destruct (w_auto n); cbn [onnx_pads fst snd]; [destruct (HN eq_refl) as (? & ? & ? & ?)| | |]; lia.
Qed.

(** A square kernel, one stride, no dilation, the same padding above and to the
    left: the import succeeds. *)
Definition square_node (n : window_node) (k s t l b r : Z) : Prop :=
  w_kernel n = Some [k; k] /\ or_default (w_strides n) [1; 1] = [s; s] /\ or_default (w_dilations n) [1; 1] = [1; 1] /\
  explicit_pads n = [t; l; b; r] /\ 0 < k /\ 0 < s /\ (w_auto n = NotSet -> 0 <= t < k /\ 0 <= l < k /\ 0 <= b < k /\ 0 <= r < k).
Lemma create_pool_ok n raw_in raw_out C H W k s t l b r OH OW :
  one_sample raw_in -> one_sample raw_out -> run_dims raw_in = [1; C; H; W] -> run_dims raw_out = [1; C; OH; OW] ->
  square_node n k s t l b r ->
  let ph := onnx_pads (w_auto n) t b H k s 1 in let pw := onnx_pads (w_auto n) l r W k s 1 in
  OH = onnx_length H ph k s 1 -> OW = onnx_length W pw k s 1 ->
  let P := mkPool C H W OH OW k s (fst ph) (fst pw) (snd ph) (snd pw) in
  create_pool n raw_in raw_out = Some P /\ pool_accepts P.
Proof.
  intros HS HSO EI EO (EK & EST & ED & EPD & Hk & Hs & HN) ph pw EOH EOW P.
  assert (G1 : get_shape raw_in = [1; C; H; W]).
  { destruct HS as (HL & HP & _). rewrite get_shape_eq by assumption. pose proof (run_dims_length raw_in) as L. rewrite EI in *. cbn in L. rewrite <- L. reflexivity. }
  assert (G2 : get_shape raw_out = [1; C; OH; OW]).
  { destruct HSO as (HL & HP & _). rewrite get_shape_eq by assumption. pose proof (run_dims_length raw_out) as L. rewrite EO in *. cbn in L. rewrite <- L. reflexivity. }
  assert (PI : Forall (fun n => 0 < n) [1; C; H; W]) by (rewrite <- EI; apply run_dims_pos; apply HS).
  assert (PO : Forall (fun n => 0 < n) [1; C; OH; OW]) by (rewrite <- EO; apply run_dims_pos; apply HSO).
  inversion PI as [|? ? _ PI1]; inversion PI1 as [|? ? HC PI2]; inversion PI2 as [|? ? HH PI3]; inversion PI3 as [|? ? HW _]; subst; clear PI PI1 PI2 PI3.
  inversion PO as [|? ? _ PO1]; inversion PO1 as [|? ? _ PO2]; inversion PO2 as [|? ? HOH PO3]; inversion PO3 as [|? ? HOW _]; subst; clear PO PO1 PO2 PO3.
  destruct (padding_eq n t l b r H W k k s 1 EPD ltac:(auto) HH HW ltac:(lia) ltac:(lia) Hs) as (p & EP & EC). fold ph pw in EC.
  pose proof (pool_padding n t l b r H W k s EPD HH HW Hk Hs HN) as (B1 & B2 & B3 & B4). fold ph pw in B1, B2, B3, B4.
  assert (E1 : (H + snd ph + fst ph - k) / s + 1 = onnx_length H ph k s 1) by (unfold onnx_length; f_equal; f_equal; ring).
  assert (E2 : (W + fst pw + snd pw - k) / s + 1 = onnx_length W pw k s 1) by (unfold onnx_length; f_equal; f_equal; ring).
  split.
  - unfold create_pool. rewrite EP, EST, EK. cbn [bind]. change (rdl [s; s] 0) with (Some s). change (rdl [k; k] 0) with (Some k). cbn [bind].
    unfold create_pool_with. rewrite G1, G2. cbn [dims3 bind]. rewrite EC, find_size4, Z.eqb_refl, E1, E2, !Z.eqb_refl by assumption. reflexivity.
  - unfold pool_accepts, P. cbn. rewrite E1, E2. repeat split; lia.
Qed.

Theorem C59_max_pool : forall (N : num) (ninf : T N) n raw_in raw_out C H W k s t l b r OH OW x, order_laws N ->
  one_sample raw_in -> one_sample raw_out -> run_dims raw_in = [1; C; H; W] -> run_dims raw_out = [1; C; OH; OW] ->
  square_node n k s t l b r ->
  let ph := onnx_pads (w_auto n) t b H k s 1 in let pw := onnx_pads (w_auto n) l r W k s 1 in
  fst ph = fst pw -> OH = onnx_length H ph k s 1 -> OW = onnx_length W pw k s 1 -> zlen x = C * H * W ->
  exists P, create_pool n raw_in raw_out = Some P /\
    forall src out act, src <> Temp -> out <> Temp ->
    exists y, max_pooled N C H W k k s s 1 1 (fst ph) (fst pw) OH OW x y /\
      layer_ok (max_pool_c N ninf P src out act) [(src, x)] out (zlen y) (zlen y) (map act y).
Proof.
  intros N ninf n raw_in raw_out C H W k s t l b r OH OW x OL HS HSO EI EO HN ph pw EQ EOH EOW Hx.
  destruct (create_pool_ok n raw_in raw_out C H W k s t l b r OH OW HS HSO EI EO HN EOH EOW) as (E & A). fold ph pw in E, A.
  set (P := mkPool C H W OH OW k s (fst ph) (fst pw) (snd ph) (snd pw)) in *.
  exists P. split; [exact E|]. intros src out act Hs Ho.
  destruct (C20_max_pool N ninf P src out act x Ho Hs OL A EQ Hx) as (y & G1 & G2).
  assert (PS : 0 <= C /\ 0 <= OH /\ 0 <= OW) by (destruct A as (? & ? & ? & ? & ? & ? & ? & ? & ? & ? & ? & ? & ?); cbn in *; lia).
  assert (ZY : zlen (tab3 C OH OW y) = C * OH * OW) by (apply zlen_tab3; lia).
  exists (tab3 C OH OW y). rewrite ZY. split.
  - split; [exact ZY|]. intros c i j Hc Hi Hj. cbv zeta. rewrite at3_tab3 by assumption. rewrite cells_window. apply G2; assumption.
  - rewrite map_tab3. exact G1.
Qed.
Print Assumptions C59_max_pool.

(** count_include_pad 0 (the default), or no padding. *)
Theorem C59_average_pool : forall (N : num) n raw_in raw_out C H W k s t l b r OH OW x,
  one_sample raw_in -> one_sample raw_out -> run_dims raw_in = [1; C; H; W] -> run_dims raw_out = [1; C; OH; OW] ->
  square_node n k s t l b r ->
  let ph := onnx_pads (w_auto n) t b H k s 1 in let pw := onnx_pads (w_auto n) l r W k s 1 in
  fst ph = fst pw -> OH = onnx_length H ph k s 1 -> OW = onnx_length W pw k s 1 -> zlen x = C * H * W ->
  exists P, create_pool n raw_in raw_out = Some P /\
    forall src out act, src <> Temp -> out <> Temp ->
    exists y, average_pooled N false C H W k k s s 1 1 (fst ph) (fst pw) OH OW x y /\
      layer_ok (avg_pool_c N P src out act) [(src, x)] out (zlen y) (zlen y) (map act y).
Proof.
  intros N n raw_in raw_out C H W k s t l b r OH OW x HS HSO EI EO HN ph pw EQ EOH EOW Hx.
  destruct (create_pool_ok n raw_in raw_out C H W k s t l b r OH OW HS HSO EI EO HN EOH EOW) as (E & A). fold ph pw in E, A.
  set (P := mkPool C H W OH OW k s (fst ph) (fst pw) (snd ph) (snd pw)) in *.
  exists P. split; [exact E|]. intros src out act Hs Ho.
  destruct (C20_average_pool N P src out act x Ho Hs A EQ Hx) as (G1 & _).
  assert (PS : 0 <= C /\ 0 <= OH /\ 0 <= OW) by (destruct A as (? & ? & ? & ? & ? & ? & ? & ? & ? & ? & ? & ? & ?); cbn in *; lia).
  eexists (tab3 C OH OW (fun f i j => let w := window (image (n0 N) P x f) H W k s (fst ph) (fst pw) i j in
             ndiv N (fold_left (nadd N) w (n0 N)) (nofZ N (zlen w)))).
  rewrite zlen_tab3 by lia. split.
  - split; [apply zlen_tab3; lia|]. intros c i j Hc Hi Hj. cbv zeta. rewrite at3_tab3 by assumption. rewrite cells_window. reflexivity.
  - rewrite map_tab3. exact G1.
Qed.
Print Assumptions C59_average_pool.

(** 3x3 window of stride 2, SAME padding on a 7x5 image; 2x2 window with explicit pads. *)
Definition ex_pool_node := mkNode (Some [3; 3]) (Some [2; 2]) None None AutoUpper None.
Definition ex_pool_node2 := mkNode (Some [2; 2]) (Some [2; 2]) (Some [1; 1]) None NotSet (Some [1; 1; 0; 1]).
Example C59_example :
  square_node ex_pool_node 3 2 0 0 0 0 /\ onnx_pads AutoUpper 0 0 7 3 2 1 = (1, 1) /\ onnx_pads AutoUpper 0 0 5 3 2 1 = (1, 1) /\
  onnx_length 7 (1, 1) 3 2 1 = 4 /\ onnx_length 5 (1, 1) 3 2 1 = 3 /\
  create_pool ex_pool_node [0; 2; 7; 5] [0; 2; 4; 3] = Some (mkPool 2 7 5 4 3 3 2 1 1 1 1) /\
  square_node ex_pool_node2 2 2 1 1 0 1 /\
  create_pool ex_pool_node2 [0; 1; 3; 4] [0; 1; 2; 3] = Some (mkPool 1 3 4 2 3 2 2 1 1 0 1).
Proof.
  split; [unfold square_node; cbn; repeat split; discriminate || lia|]. do 5 (split; [reflexivity|]).
  split; [unfold square_node; cbn; repeat split; discriminate || lia|]. reflexivity.
Qed.

(** Global average of square images. *)
Theorem C59_global_average_pool : forall (N : num) raw_in raw_out C H x,
  one_sample raw_in -> one_sample raw_out -> run_dims raw_in = [1; C; H; H] -> run_dims raw_out = [1; C; 1; 1] -> zlen x = C * H * H ->
  exists P, create_global_average_pool raw_in raw_out = Some P /\
    forall src out act, src <> Temp -> out <> Temp ->
    exists y, zlen y = C /\
      (forall c, 0 <= c < C ->
        nthZ (n0 N) y c = ndiv N (fold_left (nadd N) (tab (H * H) (fun q => nthZ (n0 N) x (c * (H * H) + q))) (n0 N)) (nofZ N (H * H))) /\
      layer_ok (avg_pool_c N P src out act) [(src, x)] out (zlen y) (zlen y) (map act y).
Proof.
  intros N raw_in raw_out C H x HS HSO EI EO Hx.
  set (n := mkNode (Some [H; H]) None None None NotSet None).
  assert (PI : Forall (fun n => 0 < n) [1; C; H; H]) by (rewrite <- EI; apply run_dims_pos; apply HS).
  inversion PI as [|? ? _ PI1]; inversion PI1 as [|? ? HC PI2]; inversion PI2 as [|? ? HH _]; subst; clear PI PI1 PI2.
  assert (SN : square_node n H 1 0 0 0 0).
  { unfold square_node, n, explicit_pads; cbn. split; [reflexivity|]. split; [reflexivity|]. split; [reflexivity|]. split; [reflexivity|]. lia. }
  assert (EL : 1 = onnx_length H (0, 0) H 1 1).
  { unfold onnx_length; cbn [fst snd]. rewrite Z.div_1_r. ring. }
  destruct (C59_average_pool N n raw_in raw_out C H H H 1 0 0 0 0 1 1 x HS HSO EI EO SN eq_refl EL EL Hx) as (P & E & G).
  exists P. split.
  { rewrite <- E. unfold create_global_average_pool, create_pool.
    destruct HS as (HL & HP & _). pose proof (get_shape_eq raw_in HL HP) as EG. pose proof (run_dims_length raw_in) as L. rewrite EI in *. cbn in L.
    rewrite EG, <- L. change (rdl [1; C; H; H] 2) with (Some H). cbn [n import_padding w_auto w_pads w_strides w_kernel or_default bind].
    change (rdl [1; 1] 0) with (Some 1). change (rdl [H; H] 0) with (Some H). cbn [bind].
    unfold create_pool_with. rewrite EG, <- L. reflexivity. }
  intros src out act Hs Ho. destruct (G src out act Hs Ho) as (y & (ZY & GY) & LY). exists y. rewrite !Z.mul_1_r in ZY.
  split; [exact ZY|]. split; [|exact LY]. intros c Hc.
  specialize (GY c 0 0 Hc ltac:(lia) ltac:(lia)). cbv zeta in GY. unfold at3, idx3 in GY. replace (0 + 1 * (0 + 1 * c)) with c in GY by ring. rewrite GY. clear GY.
  assert (EC : cells (n0 N) H H x H H 1 1 1 1 (fst (onnx_pads (w_auto n) 0 0 H H 1 1)) (fst (onnx_pads (w_auto n) 0 0 H H 1 1)) c 0 0
               = tab (H * H) (fun q => nthZ (n0 N) x (c * (H * H) + q))).
  { cbn [n w_auto onnx_pads fst]. unfold cells. transitivity (flat_map (fun h => tab H (fun q => nthZ (n0 N) x (c * (H * H) + (h * H + q)))) (zrange H)).
    - apply flat_map_ext_rng. intros h Hh. rewrite tab_map. transitivity (flat_map (fun q => [nthZ (n0 N) x (c * (H * H) + (h * H + q))]) (zrange H)).
      + apply flat_map_ext_rng. intros q Hq. replace (0 * 1 + h * 1 - 0) with h by ring. replace (0 * 1 + q * 1 - 0) with q by ring.
        replace ((0 <=? h) && (h <? H) && (0 <=? q) && (q <? H)) with true; [|symmetry; rewrite !andb_true_iff, !Z.leb_le, !Z.ltb_lt; lia].
        unfold at3, idx3. f_equal. f_equal. ring.
      + induction (zrange H) as [|q l IH]; [reflexivity|]. cbn [flat_map map app]. rewrite IH. reflexivity.
    - rewrite <- (tab_nested H H (fun h q => nthZ (n0 N) x (c * (H * H) + (h * H + q)))) by lia. apply tab_ext. intros k Hk.
      rewrite (Z.mul_comm (k / H)), <- Z.div_mod by lia. reflexivity. }
  rewrite EC, zlen_tab by nia. reflexivity.
Qed.
Print Assumptions C59_global_average_pool.
(** Two images of 3x3: means 5 and 50. *)
Example C59_global_average_pool_example :
  create_global_average_pool [0; 2; 3; 3] [0; 2; 1; 1] = Some (mkPool 2 3 3 1 1 3 1 0 0 0 0) /\
  result_of (avg_pool_c Znum (mkPool 2 3 3 1 1 3 1 0 0 0 0) (Out 0) (Out 1) (fun v => v)
    (mem_of [(Out 0, [1; 2; 3; 4; 5; 6; 7; 8; 9; 10; 20; 30; 40; 50; 60; 70; 80; 90]); (Out 1, [0; 0]); (Temp, [0; 0])])) (Out 1) 2 = Some [5; 50].
Proof. split; [reflexivity|vm_compute; reflexivity]. Qed.

(** Other images are rejected: the window is square. *)
Theorem C59_global_average_pool_refuted : forall raw_in raw_out C H W,
  one_sample raw_in -> one_sample raw_out -> run_dims raw_in = [1; C; H; W] -> run_dims raw_out = [1; C; 1; 1] -> H <> W ->
  create_global_average_pool raw_in raw_out = None.
Proof.
  intros raw_in raw_out C H W HS HSO EI EO NE.
  assert (G1 : get_shape raw_in = [1; C; H; W]).
  { destruct HS as (HL & HP & _). rewrite get_shape_eq by assumption. pose proof (run_dims_length raw_in) as L. rewrite EI in *. cbn in L. rewrite <- L. reflexivity. }
  assert (G2 : get_shape raw_out = [1; C; 1; 1]).
  { destruct HSO as (HL & HP & _). rewrite get_shape_eq by assumption. pose proof (run_dims_length raw_out) as L. rewrite EO in *. cbn in L. rewrite <- L. reflexivity. }
  unfold create_global_average_pool, create_pool_with. rewrite G1, G2. change (rdl [1; C; H; W] 2) with (Some H). cbn [bind dims3 compute_padding].
  replace (1 =? (W + 0 + 0 - H) / 1 + 1) with false; [rewrite andb_false_r; reflexivity|].
  symmetry. apply Z.eqb_neq. rewrite Z.div_1_r. lia.
Qed.
Print Assumptions C59_global_average_pool_refuted.

(** Attributes that are dropped.  Each node below is imported without an error
    and the generated code computes something else. *)
Definition dropped (n : window_node) (raw_in raw_out x : list Z) (bad : list Z -> Prop) : Prop :=
  exists P y, create_pool n raw_in raw_out = Some P /\
    result_of (max_pool_c Znum (-1000) P (Out 0) (Out 1) (fun v => v) (mem_of [(Out 0, x); (Out 1, repeat 0 (length y)); (Temp, repeat 0 (length y))])) (Out 1) (length y) = Some y /\ bad y.
(** The second entry of kernel_shape. *)
Theorem C59_kernel_shape_refuted :
  onnx_length 5 (0, 0) 3 2 1 = 2 /\
  dropped (mkNode (Some [2; 3]) (Some [2; 2]) None None NotSet None) [1; 1; 2; 5] [1; 1; 1; 2] [1; 2; 3; 4; 5; 6; 7; 8; 9; 10]
    (fun y => ~ max_pooled Znum 1 2 5 2 3 2 2 1 1 0 0 1 2 [1; 2; 3; 4; 5; 6; 7; 8; 9; 10] y).
Proof.
  split; [reflexivity|]. exists (mkPool 1 2 5 1 2 2 2 0 0 0 0), [7; 9]. split; [reflexivity|]. split; [vm_compute; reflexivity|].
  intros (_ & G). destruct (G 0 0 0 ltac:(lia) ltac:(lia) ltac:(lia)) as (_ & G'). specialize (G' 8). cbv in G'. specialize (G' ltac:(tauto)). discriminate.
Qed.
Print Assumptions C59_kernel_shape_refuted.
(** The second entry of strides. *)
Theorem C59_strides_refuted :
  onnx_length 5 (0, 0) 2 3 1 = 2 /\
  dropped (mkNode (Some [2; 2]) (Some [2; 3]) None None NotSet None) [1; 1; 2; 5] [1; 1; 1; 2] [1; 2; 3; 4; 5; 6; 7; 8; 9; 10]
    (fun y => ~ max_pooled Znum 1 2 5 2 2 2 3 1 1 0 0 1 2 [1; 2; 3; 4; 5; 6; 7; 8; 9; 10] y).
Proof.
  split; [reflexivity|]. exists (mkPool 1 2 5 1 2 2 2 0 0 0 0), [7; 9]. split; [reflexivity|]. split; [vm_compute; reflexivity|].
  intros (_ & G). destruct (G 0 0 1 ltac:(lia) ltac:(lia) ltac:(lia)) as (_ & G'). specialize (G' 10). cbv in G'. specialize (G' ltac:(tauto)). discriminate.
Qed.
Print Assumptions C59_strides_refuted.
(** dilations. *)
Theorem C59_dilations_refuted :
  onnx_length 4 (0, 0) 2 2 2 = 1 /\ onnx_length 3 (0, 0) 2 2 2 = 1 /\
  dropped (mkNode (Some [2; 2]) (Some [2; 2]) (Some [2; 2]) None NotSet None) [1; 1; 3; 3] [1; 1; 1; 1] [1; 2; 3; 4; 5; 6; 7; 8; 9]
    (fun y => ~ max_pooled Znum 1 3 3 2 2 2 2 2 2 0 0 1 1 [1; 2; 3; 4; 5; 6; 7; 8; 9] y).
Proof.
  split; [reflexivity|]. split; [reflexivity|]. exists (mkPool 1 3 3 1 1 2 2 0 0 0 0), [5]. split; [reflexivity|]. split; [vm_compute; reflexivity|].
  intros (_ & G). destruct (G 0 0 0 ltac:(lia) ltac:(lia) ltac:(lia)) as (_ & G'). specialize (G' 9). cbv in G'. specialize (G' ltac:(tauto)). discriminate.
Qed.
Print Assumptions C59_dilations_refuted.
(** count_include_pad = 1 (not an attribute the import reads). *)
Theorem C59_count_include_pad_refuted : exists P y,
  create_pool (mkNode (Some [2; 2]) (Some [2; 2]) None None NotSet (Some [1; 1; 1; 1])) [1; 1; 2; 2] [1; 1; 2; 2] = Some P /\
  onnx_length 2 (1, 1) 2 2 1 = 2 /\
  result_of (avg_pool_c Znum P (Out 0) (Out 1) (fun v => v) (mem_of [(Out 0, [4; 8; 12; 16]); (Out 1, [0; 0; 0; 0]); (Temp, [0; 0; 0; 0])])) (Out 1) 4 = Some y /\
  ~ average_pooled Znum true 1 2 2 2 2 2 2 1 1 1 1 2 2 [4; 8; 12; 16] y.
Proof.
  exists (mkPool 1 2 2 2 2 2 2 1 1 1 1), [4; 8; 12; 16]. split; [reflexivity|]. split; [reflexivity|]. split; [vm_compute; reflexivity|].
  intros (_ & G). specialize (G 0 0 0 ltac:(lia) ltac:(lia) ltac:(lia)). vm_compute in G. discriminate.
Qed.
Print Assumptions C59_count_include_pad_refuted.
