(** * Property C66: an imported ONNX Resize node in nearest mode has its ONNX
    meaning; [documented] and [rounds] (PropertiesResize.v) are ONNX's coordinate
    transformations and rounding modes. *)
From Coq Require Import ZArith List Lia Bool QArith Qround Lqa.
Import ListNotations.
From Verif Require Import CMem Tensor Num NumInst Movement Resize ResizeProofs PropertiesMovement PropertiesResize
  OnnxSpec OnnxOps OnnxOpsProofs OnnxMisc PropertiesOnnxPad OnnxResize ResizeFloat.
Open Scope Z_scope.

(** Every element of the output is the element of the input whose coordinates
    are the transformed and rounded ones. *)
Definition resized_nearest {V} (d : V) (md : cmode) (nm : nmode) (sh sw : Q) (C H W OH OW : Z) (x y : list V) : Prop :=
  zlen y = prod [1; C; OH; OW] /\
  forall c i j, inside [1; C; OH; OW] [0; c; i; j] -> exists h w,
    rounds nm (documented md sh H OH i) h /\ rounds nm (documented md sw W OW j) w /\ inside [1; C; H; W] [0; c; h; w] /\
    el d [1; C; OH; OW] y [0; c; i; j] = el d [1; C; H; W] x [0; c; h; w].

(** The new sizes, or the scales of the two last axes, asked for by the node. *)
Definition asks (n : resize_node) (C H W OH OW : Z) (sh sw : Q) : Prop :=
  (exists b, rn_sizes n = Given [b; C; OH; OW] /\ sh = (inject_Z OH / inject_Z H)%Q /\ sw = (inject_Z OW / inject_Z W)%Q) \/
  (rn_sizes n = NotInitialiser /\ exists b, (0 < b)%Q /\ rn_scales n = Given [b; 1%Q; sh; sw] /\
     OH = Qfloor (inject_Z H * sh) /\ OW = Qfloor (inject_Z W * sw)).

Lemma inject_pos z : 0 < z -> (0 < inject_Z z)%Q.
Proof. intros Hz. change 0%Q with (inject_Z 0). rewrite <- Zlt_Qlt. exact Hz. Qed.
Lemma div_pos a b : (0 < a -> 0 < b -> 0 < a / b)%Q.
Proof. intros Ha Hb. apply Qlt_shift_div_l; [exact Hb|]. rewrite Qmult_0_l. exact Ha. Qed.
Lemma not_le q : (0 < q)%Q -> negb (Qle_bool q 0) = true.
Proof. intros Hq. destruct (Qle_bool q 0) eqn:E; [|reflexivity]. apply Qle_bool_iff in E. lra. Qed.
Lemma resized_ratio a b : 0 < a -> 0 < b -> resized (inject_Z b / inject_Z a) a = b.
Proof.
  intros Ha Hb. unfold resized. assert (E : (inject_Z a * (inject_Z b / inject_Z a) == inject_Z b)%Q).
  { field. intros G. pose proof (inject_pos a Ha). lra. }
  rewrite (Qfloor_comp _ _ E). apply Qfloor_Z.
Qed.
Lemma asks_positive n C H W OH OW sh sw : 0 < H -> 0 < W -> 0 < OH -> 0 < OW -> asks n C H W OH OW sh sw ->
  (0 < sh)%Q /\ (0 < sw)%Q /\ OH = resized sh H /\ OW = resized sw W.
Proof.
  intros HH HW HOH HOW [(b & _ & -> & ->)|(_ & b & _ & _ & E1 & E2)].
  - split; [apply div_pos; apply inject_pos; assumption|]. split; [apply div_pos; apply inject_pos; assumption|].
    rewrite !resized_ratio by assumption. auto.
  - assert (G : forall h oh s, 0 < h -> 0 < oh -> oh = Qfloor (inject_Z h * s) -> (0 < s)%Q).
    { intros h oh s Hh Hoh E. destruct (Qlt_le_dec 0 s) as [|L]; [assumption|exfalso].
      pose proof (Qfloor_le (inject_Z h * s)) as F. rewrite <- E in F. pose proof (inject_pos oh Hoh). pose proof (inject_pos h Hh). nra. }
    split; [exact (G H OH sh HH HOH E1)|]. split; [exact (G W OW sw HW HOW E2)|]. auto.
Qed.

(** ** C66.  All four inputs are there, the sizes or the scales as initialisers;
    the axes in [always_inside] (C31). *)
Theorem C66_resize_nearest_partial : forall (N : num) (d : T N) n raw_in raw_out C H W OH OW sh sw x,
  one_sample raw_in -> one_sample raw_out -> run_dims raw_in = [1; C; H; W] -> run_dims raw_out = [1; C; OH; OW] ->
  rn_kind n = Some KNearest -> rn_policy n = false -> rn_axes n = None ->
  (rn_roi n = NotInitialiser \/ rn_roi n = Given []) -> asks n C H W OH OW sh sw ->
  let md := given (rn_ctm n) HalfPixel in let nm := given (rn_nearest n) RoundPreferFloor in
  always_inside md nm sh -> always_inside md nm sw -> (md = AlignCorners -> nm = NFloor /\ OH <> 1 /\ OW <> 1) ->
  zlen x = C * H * W ->
  exists l, create_resize n raw_in raw_out = Some l /\ rz_OC l = C /\
    forall src out act, src <> Temp -> out <> Temp ->
    exists y, resized_nearest d md nm sh sw C H W OH OW x y /\
      layer_ok (nearest_c N (rz_nearest l) src out (rz_p l) act) [(src, x)] out (zlen y) (zlen y) (map act y).
Proof.
  intros N d n raw_in raw_out C H W OH OW sh sw x HS HSO EI EO EK EPO EAX ER HA md nm A1 A2 A3 Hx.
  destruct (shape4 raw_in C H W HS EI) as (G1 & HC & HH & HW). destruct (shape4 raw_out C OH OW HSO EO) as (G2 & _ & HOH & HOW).
  destruct (asks_positive n C H W OH OW sh sw HH HW HOH HOW HA) as (P1 & P2 & R1 & R2).
  set (p := mkR C H W OH OW sh sw md). exists (mkResizeLayer KNearest nm C p). split; [|split; [reflexivity|]].
  - assert (ROI : roi_ok (rn_roi n) = true) by (destruct ER as [-> | ->]; reflexivity).
    unfold create_resize. rewrite G1, G2. cbn [dims3 bind]. rewrite EK, EPO, EAX, ROI, find_size4 by assumption. cbn [given forallb negb andb].
    destruct HA as [(b & -> & -> & ->)|(-> & b & Hb & -> & E1 & E2)].
    + change (rdl [b; C; OH; OW] 1) with (Some C). change (rdl [b; C; OH; OW] 2) with (Some OH). change (rdl [b; C; OH; OW] 3) with (Some OW).
      cbn [bind]. rewrite Z.eqb_refl. cbn [forallb andb].
      rewrite (not_le 1%Q) by lra. rewrite (not_le _ P1), (not_le _ P2). rewrite (not_le (inject_Z C / inject_Z C)%Q) by (apply div_pos; apply inject_pos; assumption).
      reflexivity.
    + change (rdl [b; 1%Q; sh; sw] 1) with (Some 1%Q). change (rdl [b; 1%Q; sh; sw] 2) with (Some sh). change (rdl [b; 1%Q; sh; sw] 3) with (Some sw).
      cbn [bind]. assert (EC : resized 1 C = C).
      { unfold resized. assert (E : (inject_Z C * 1 == inject_Z C)%Q) by ring. rewrite (Qfloor_comp _ _ E). apply Qfloor_Z. }
      rewrite EC. unfold resized. rewrite <- E1, <- E2, Z.eqb_refl. cbn [forallb andb].
      rewrite (not_le _ Hb), (not_le 1%Q), (not_le _ P1), (not_le _ P2) by lra. reflexivity.
  - intros src out act Hs Ho. cbn [rz_nearest rz_p].
    destruct (C31_nearest_partial N d nm src out p act x Ho Hs) as (kx & ky & K1 & K2 & _ & L); cbn [rC rH rW rOH rOW rsh rsw rmode p].
    + unfold resize_wf. cbn [rC rH rW rOH rOW rsh rsw rmode p]. split; [lia|]. split; [exact P1|]. split; [exact P2|]. split; [exact R1|]. split; [exact R2|]. lia.
    + exact Hx.
    + exact A1.
    + exact A2.
    + exact A3.
    + cbn [rC rH rW rOH rOW rsh rsw rmode p] in K1, K2, L.
      exists (tab3 C OH OW (fun f i j => at3 d H W x f (kx i) (ky j))). split.
      * split; [rewrite zlen_tab3, prod4 by lia; reflexivity|]. intros c i j HI. destruct (inside4 _ _ _ _ HI) as (c' & i' & j' & E & Hc & Hi & Hj).
        injection E as <- <- <-. destruct (K1 i Hi) as (U1 & U2). destruct (K2 j Hj) as (V1 & V2).
        exists (kx i), (ky j). split; [exact U1|]. split; [exact V1|]. split; [repeat constructor; lia|]. rewrite !el4, at3_tab3 by assumption. reflexivity.
      * rewrite zlen_tab3 by lia. exact L.
Qed.
Print Assumptions C66_resize_nearest_partial.

(** Twice as many rows and columns, asked for by scales. *)
Definition ex_resize := mkResizeNode (Some KNearest) (Some Asymmetric) (Some NFloor) None false NotInitialiser (Given [1; 1; 2; 2]%Q) NotInitialiser.
Example C66_example :
  asks ex_resize 3 4 5 8 10 2 2 /\ always_inside Asymmetric NFloor 2 /\
  create_resize ex_resize [0; 3; 4; 5] [0; 3; 8; 10] = Some (mkResizeLayer KNearest NFloor 3 (mkR 3 4 5 8 10 2 2 Asymmetric)).
Proof.
  split; [right; split; [reflexivity|]; exists 1%Q; split; [lra|]; split; [reflexivity|]; split; reflexivity|].
  split; [exact I|reflexivity].
Qed.

(** Nodes with the scales as last input (the usual form) are rejected, as are
    nodes without mode attribute (default "nearest"), with an aspect ratio policy
    (even the default one), with a region of interest. *)
Theorem C66_scales_only_refuted : forall n raw_in raw_out, rn_sizes n = Missing -> create_resize n raw_in raw_out = None.
Proof. intros n raw_in raw_out E. unfold create_resize. rewrite E. destruct (dims3 _) as [[[C H] W]|]; reflexivity. Qed.
Print Assumptions C66_scales_only_refuted.
Lemma resize_needs n raw_in raw_out l : create_resize n raw_in raw_out = Some l ->
  rn_kind n <> None /\ rn_policy n = false /\ roi_ok (rn_roi n) = true /\ forallb (fun a => (0 <=? a) && (a <? 4)) (given (rn_axes n) []) = true.
Proof.
  unfold create_resize. intros E. destruct (dims3 _) as [[[C H] W]|]; [|discriminate]. cbn [bind] in E.
  match type of E with bind ?o _ = _ => destruct o as [[[[OC OH] OW] scale]|]; [|discriminate] end. cbn [bind] in E.
  destruct (rn_kind n); [|discriminate]. cbn [bind] in E.
  match type of E with (if ?b then _ else _) = _ => destruct b eqn:B; [|discriminate] end.
  rewrite !andb_true_iff, negb_true_iff in B. destruct B as ((((B1 & B2) & _) & B4) & _). split; [discriminate|]. auto.
Qed.
Theorem C66_default_mode_refuted : forall n raw_in raw_out, rn_kind n = None -> create_resize n raw_in raw_out = None.
Proof.
  intros n raw_in raw_out E. destruct (create_resize n raw_in raw_out) eqn:R; [|reflexivity]. destruct (resize_needs _ _ _ _ R) as (G & _). contradiction.
Qed.
Print Assumptions C66_default_mode_refuted.
Theorem C66_policy_refuted : forall n raw_in raw_out, rn_policy n = true -> create_resize n raw_in raw_out = None.
Proof.
  intros n raw_in raw_out E. destruct (create_resize n raw_in raw_out) eqn:R; [|reflexivity]. destruct (resize_needs _ _ _ _ R) as (_ & G & _). congruence.
Qed.
Print Assumptions C66_policy_refuted.
Theorem C66_roi_refuted : forall n raw_in raw_out r, rn_roi n = Given r -> zlen r = 8 -> create_resize n raw_in raw_out = None.
Proof.
  intros n raw_in raw_out r E L. destruct (create_resize n raw_in raw_out) eqn:R; [|reflexivity]. destruct (resize_needs _ _ _ _ R) as (_ & _ & G & _).
  rewrite E in G. destruct r as [|q0 [|q1 r]]; cbn in L; discriminate.
Qed.
Print Assumptions C66_roi_refuted.
(** With an axes attribute for the two last axes, the target is not found. *)
Theorem C66_axes_refuted : forall n raw_in raw_out s, rn_axes n = Some [2; 3] -> rn_sizes n = Given s -> zlen s = 2 -> create_resize n raw_in raw_out = None.
Proof.
  intros n raw_in raw_out s _ ES L. unfold create_resize. rewrite ES. destruct (dims3 _) as [[[C H] W]|]; [|reflexivity]. cbn [bind].
  destruct s as [|a [|b [|c s]]]; try discriminate L; [reflexivity|]. rewrite !zlen_cons in L. pose proof (zlen_nonneg s). lia.
Qed.
Print Assumptions C66_axes_refuted.

(** ** The layer whose code is generated is rebuilt from the scales, in floating
    point (ResizeFloat.v): its size is checked against the one of the output. *)
Theorem C66_rebuilt_power_of_two : forall isize osize s m,
  0 < isize <= 2 ^ 24 -> 0 < osize <= 2 ^ 24 -> 0 <= s <= 20 -> osize * 2 ^ s = m * isize -> rebuilt_size isize osize = osize.
Proof. intros isize osize s m Hi Ho Hs E. exact (rebuilt_exact isize osize Hi Ho s m Hs E). Qed.
Print Assumptions C66_rebuilt_power_of_two.
Theorem C66_rebuilt_partial : forall isize osize,
  0 < isize <= 2 ^ 24 -> 0 < osize <= 2 ^ 24 -> rebuilt_size isize osize = osize \/ rebuilt_size isize osize = osize - 1.
Proof. exact rebuilt_close. Qed.
Print Assumptions C66_rebuilt_partial.
(** From 7 to 61 or from 11 to 15 rows, one row is lost and the layer is
    rejected (size value). *)
Theorem C66_rebuilt_refuted : rebuilt_size 7 61 = 60 /\ rebuilt_size 11 15 = 14 /\ rebuilt_size 49 1 = 0.
Proof. repeat split; vm_compute; reflexivity. Qed.
Print Assumptions C66_rebuilt_refuted.
Example C66_rebuilt_example : rebuilt_size 224 448 = 448 /\ rebuilt_size 3 5 = 5 /\ 448 * 2 ^ 0 = 2 * 224 /\ rebuilt_size 32 7 = 7 /\ 7 * 2 ^ 5 = 7 * 32.
Proof. repeat split; vm_compute; reflexivity. Qed.
