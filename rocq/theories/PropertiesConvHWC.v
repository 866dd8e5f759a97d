(** * Properties C18 and C49: the channels-last convolutions ("direct_block").
    [convolution_hwc] and [depthwise_hwc] (last section of ConvHWC.v) are the
    convolution of Conv.v between channels-last tensors. *)
From Coq Require Import ZArith List Lia Bool QArith.QArith QArith.Qcanon.
Import ListNotations.
Open Scope Z_scope.
From Verif Require Import CMem Tensor Num NumInst Padding Movement Conv ConvHWC ConvHWCProofs2 WinogradProofs PropertiesMovement.

(** ** C18. The tile identity, for every commutative ring with one half: each of
    the four outputs of a tile is the direct 3x3 product. *)
Theorem C18_tile_identity : forall (N : num), ring_laws N -> forall half, nadd N half half = n1 N ->
  forall (d g : Z -> Z -> T N) a b, (a = 0 \/ a = 1) -> (b = 0 \/ b = 1) ->
  wino_AT N b (fun q => wino_AT N a (fun i =>
     nmul N (wino_BT N q (fun j => wino_BT N i (fun r => d r j))) (gGg N half g i q)))
  = nsum N 3 (fun j => nsum N 3 (fun l => nmul N (d (a + j) (b + l)) (g j l))).
Proof. exact winograd_2d. Qed.
Print Assumptions C18_tile_identity.

(** The whole layer, for even output sizes. *)
Theorem C18_winograd_even_partial : forall (N : num), ring_laws N -> forall half, nadd N half half = n1 N ->
  forall src out c BK w b act x,
  out <> Temp -> src <> Temp -> conv_dims N c w b x ->
  kh c = 3 -> kw c = 3 -> strides c = 1 -> dilation c = 1 -> pt c = pl c ->
  0 < BK -> nf c mod BK = 0 -> oh c mod 2 = 0 -> ow c mod 2 = 0 ->
  layer_ok (winograd_c N src out c BK (wino_layout N half c BK w) b act) [(src, x)] out
    (nf c * oh c * ow c) (nf c * oh c * ow c) (convolution_hwc N c w b act x).
Proof. exact winograd_ok. Qed.
Print Assumptions C18_winograd_even_partial.

(** The code selects this template from the parity of the input width only
    (Conv2Ddirect_block.py:120-121); when the output height is odd the last
    row is never written. *)
Theorem C18_odd_height_refuted : exists c (w b x : list Qc) m,
  conv_dims Qcnum c w b x /\ kh c = 3 /\ kw c = 3 /\ strides c = 1 /\ dilation c = 1 /\ iw c mod 2 = 0 /\
  (pr c, pl c, pb c, pt c) = compute_padding Valid (ih c) (iw c) 3 3 1 1 /\
  oh c = conv_output_size (ih c) (pt c) (pb c) 3 1 1 /\ ow c = conv_output_size (iw c) (pl c) (pr c) 3 1 1 /\
  holds m (Out 0) x /\ nf c * oh c * ow c <= zlen (m Temp) /\ nf c * oh c * ow c <= zlen (m (Out 0)) /\
  option_map (map this) (result_of (winograd_c Qcnum (Out 0) (Out 0) c 1 (wino_layout Qcnum (Q2Qc (1 # 2)) c 1 w) b (fun v => v) m) (Out 0) 2)
  <> Some (map this (convolution_hwc Qcnum c w b (fun v => v) x)).
Proof.
  pose (one := Q2Qc 1).
  exists (mkConv 1 3 4 1 1 2 3 3 1 1 0 0 0 0), (repeat one 9), [Q2Qc 0], (repeat one 12),
    (mem_of [(Out 0, repeat one 12); (Temp, repeat (Q2Qc 7) 12)]).
  split; [constructor; cbn; try lia; reflexivity|]. repeat (split; [reflexivity|]).
  split; [exists []; reflexivity|]. split; [vm_compute; congruence|]. split; [vm_compute; congruence|].
  vm_compute. congruence.
Qed.
Print Assumptions C18_odd_height_refuted.

Definition wino_conv := mkConv 1 4 4 2 2 2 3 3 1 1 0 0 0 0.
Definition qz (k : Z) : Qc := Q2Qc (inject_Z k).
Example C18_example :
  ring_laws Qcnum /\ nadd Qcnum (Q2Qc (1 # 2)) (Q2Qc (1 # 2)) = n1 Qcnum /\
  conv_dims Qcnum wino_conv (map qz (tab 18 (fun k => k))) (map qz [100; 200]) (map qz (tab 16 (fun k => k))) /\
  option_map (map this) (result_of (winograd_c Qcnum (Out 0) (Out 0) wino_conv 1
     (wino_layout Qcnum (Q2Qc (1 # 2)) wino_conv 1 (map qz (tab 18 (fun k => k)))) (map qz [100; 200]) (fun v => v)
     (mem_of [(Out 0, map qz (tab 16 (fun k => k))); (Temp, repeat (qz 7) 8)])) (Out 0) 8)
  = Some [358; 863; 394; 980; 502; 1331; 538; 1448]%Q.
Proof.
  split; [exact (fl_ring Qcnum Qcnum_field)|]. split; [apply Qc_is_canon; reflexivity|].
  split; [constructor; cbn; try lia; reflexivity|]. vm_compute. reflexivity.
Qed.

(** ** C49. Direct blocked code: any kernel, stride and (equal top/left) padding;
    [BK] is the block of filters. *)
Theorem C49_direct_block : forall (N : num), ring_laws N -> forall src out c BK w b act x,
  out <> Temp -> src <> Temp -> conv_dims N c w b x -> dilation c = 1 -> pt c = pl c ->
  0 < BK -> nf c mod BK = 0 ->
  layer_ok (direct_block_c N src out c BK (block_layout N c BK w) b act) [(src, x)] out
    (nf c * oh c * ow c) (nf c * oh c * ow c) (convolution_hwc N c w b act x).
Proof. exact direct_block_ok. Qed.
Print Assumptions C49_direct_block.

Theorem C49_depthwise : forall (N : num), ring_laws N -> forall src out c w b act x,
  out <> Temp -> src <> Temp ->
  0 <= ih c -> 0 <= iw c -> 0 <= nf c -> 0 <= oh c -> 0 <= ow c -> 0 <= kh c -> 0 <= kw c ->
  ic c = nf c -> zlen x = nf c * ih c * iw c -> zlen b = nf c -> pt c = pl c ->
  layer_ok (depthwise_c N src out c (dw_layout N c w) b act) [(src, x)] out
    (nf c * oh c * ow c) (nf c * oh c * ow c) (depthwise_hwc N c w b act x).
Proof. exact depthwise_ok. Qed.
Print Assumptions C49_depthwise.

Definition ex_hwc := mkConv 2 3 3 2 2 2 2 2 2 1 1 1 0 0.
Example C49_example :
  conv_dims Znum ex_hwc [1;0;0;0; 0;1;0;0; 0;0;1;0; 0;0;0;1] [100; 200] (ramp 18) /\
  (* channels-last input, two blocks of one filter *)
  result_of (direct_block_c Znum (Out 0) (Out 0) ex_hwc 1
      (block_layout Znum ex_hwc 1 [1;0;0;0; 0;1;0;0; 0;0;1;0; 0;0;0;1]) [100; 200] (fun v => v)
      (mem_of [(Out 0, ramp 18); (Temp, repeat 0 20)])) (Out 0) 8
  = Some (convolution_hwc Znum ex_hwc [1;0;0;0; 0;1;0;0; 0;0;1;0; 0;0;0;1] [100; 200] (fun v => v) (ramp 18)) /\
  result_of (depthwise_c Znum (Out 0) (Out 0) ex_hwc (dw_layout Znum ex_hwc [1;2;3;4; 5;6;7;8]) [100; 200] (fun v => v)
      (mem_of [(Out 0, ramp 18); (Temp, repeat 0 20)])) (Out 0) 8
  = Some [100; 208; 122; 261; 160; 346; 234; 552].
Proof. split; [constructor; cbn; try lia; reflexivity|]. split; vm_compute; reflexivity. Qed.
