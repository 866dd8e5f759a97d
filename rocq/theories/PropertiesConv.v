(** * Properties C14-C17, C19: convolutions and padding.
    The specification [convolution] is in Conv.v (last section): for each filter
    and output position, the bias plus the sum over channels and kernel positions
    of weight times zero-padded input. *)
From Coq Require Import ZArith List Lia Bool.
Import ListNotations.
Open Scope Z_scope.
From Verif Require Import CMem Tensor Num NumInst Padding Conv ConvProofs IndirectProofs Graph GraphSpec GraphProofs4 GraphProofs5 Movement PropertiesMovement.

(** ** C14: any strides, dilation and pads. *)
Theorem C14_six_loops : forall (N : num), zero_product_law N -> forall src out c w b act x,
  out <> Temp -> src <> Temp -> conv_dims N c w b x ->
  layer_ok (conv6_c N src out c w b act) [(src, x)] out (nf c * oh c * ow c) (nf c * oh c * ow c)
    (convolution N c w b act x).
Proof. exact conv6_ok. Qed.
Print Assumptions C14_six_loops.

Theorem C14_python : forall (N : num), mul_comm_law N -> forall c w b act x,
  conv_dims N c w b x -> dilation c = 1 -> conv_py N c w b act x = convolution N c w b act x.
Proof. exact conv_py_ok. Qed.
Print Assumptions C14_python.

(** The Python reference ignores the dilation. *)
Theorem C14_python_dilation_refuted : exists c (w b x : list Z),
  conv_dims Znum c w b x /\ dilation c = 2 /\
  oh c = conv_output_size (ih c) (pt c) (pb c) (kh c) (strides c) (dilation c) /\
  ow c = conv_output_size (iw c) (pl c) (pr c) (kw c) (strides c) (dilation c) /\
  conv_py Znum c w b (fun v => v) x <> convolution Znum c w b (fun v => v) x.
Proof.
  exists (mkConv 1 1 3 1 1 1 1 2 1 2 0 0 0 0), [1; 1], [0], [1; 10; 100].
  split; [constructor; cbn; try lia; reflexivity|]. repeat split. vm_compute. congruence.
Qed.
Print Assumptions C14_python_dilation_refuted.

(** A 2-channel 3x3 image, two 2x2 filters, stride 2, one line and column of padding. *)
Definition ex_conv := mkConv 2 3 3 2 2 2 2 2 2 1 1 1 0 0.
Definition ex_w : list Z := [1;0;0;0; 0;1;0;0; 0;0;1;0; 0;0;0;1].
Example C14_example :
  zero_product_law Znum /\ mul_comm_law Znum /\ conv_dims Znum ex_conv ex_w [100; 200] (ramp 18) /\
  oh ex_conv = conv_output_size 3 1 0 2 2 1 /\
  result_of (conv6_c Znum (Out 0) (Out 0) ex_conv ex_w [100; 200] (fun v => v)
     (mem_of [(Out 0, ramp 18); (Temp, repeat 0 20)])) (Out 0) 8
  = Some [100; 100; 112; 118; 209; 212; 215; 224].
Proof.
  split; [intros s y; cbn; lia|]. split; [intros x y; cbn; lia|].
  split; [constructor; cbn; try lia; reflexivity|]. split; reflexivity.
Qed.

(** ** C15: the im2col + GEMM code computes the same tensor.  The input is either
    in a saved copy [Cst k] or in the layer's own array. *)
Theorem C15_std_gemm_nn : forall (N : num), zero_product_law N -> mul_comm_law N ->
  forall pred_cst out c w b act x,
  out <> Temp -> (forall k, pred_cst = Some k -> out <> Cst k) -> conv_dims N c w b x -> dilation c = 1 ->
  let src := match pred_cst with Some k => Cst k | None => out end in
  layer_ok (std_gemm_c N NN pred_cst out c w b act) [(src, x)] out
    (Z.max (ic c * ih c * iw c) (nf c * oh c * ow c))
    (Z.max (nf c * oh c * ow c) (patches_height c * patches_width c))
    (convolution N c w b act x).
Proof. exact std_gemm_nn_ok. Qed.
Print Assumptions C15_std_gemm_nn.

(** That the input is in the layer's own array when it is not in a saved copy is
    what the allocator guarantees: a layer with a single input that nobody else
    reads gets its input's array. *)
Theorem C15_input_is_in_own_array : forall g s n p,
  linked g -> acyclic g -> no_repeated_input g -> constants_are_sources g -> no_constant_expression g ->
  tri_topo g = Some s -> In n (order s) -> In p (order s) -> previous_layer g n = [p] -> next_layer g p = [n] ->
  exists i, output_str s p = Some (Out i) /\ dget (paths s) n = Some i.
Proof.
  intros g s n p L A R C X E Hin Hpin Hp Hn.
  destruct (inplace_path g s n p E Hin Hp) as (i & H1 & H2).
  { rewrite Hn. intros q [<-|[]]. reflexivity. }
  exists i. split; [|exact H2].
  destruct (tri_topo_readable g s L A R C X E) as [HR _]. destruct (HR p Hpin) as [HC _].
  unfold output_str in *. destruct (dget (csts s) p) as [k|]; [|rewrite H1; reflexivity].
  exfalso. assert (1 < length (next_layer g p))%nat by (apply HC; eauto). rewrite Hn in H. cbn in H. lia.
Qed.
Print Assumptions C15_input_is_in_own_array.

(** The same fact makes Flatten (C33) correct whenever nobody else reads its input. *)
Theorem C33_flatten_single_reader_partial : forall g s n p,
  linked g -> acyclic g -> no_repeated_input g -> constants_are_sources g -> no_constant_expression g ->
  tri_topo g = Some s -> In n (order s) -> In p (order s) -> previous_layer g n = [p] -> next_layer g p = [n] ->
  exists i b, output_str s p = Some b /\ dget (paths s) n = Some i /\
    forall (V : Type) (d : V) channels_last C H W x, 0 <= C -> 0 <= H -> 0 <= W -> zlen x = C * H * W ->
    layer_ok (flatten_c (Out i) channels_last C H W) [(b, x)] (Out i) (C * H * W) (C * H * W)
      (if channels_last then tab3 H W C (fun i j f => at3 d H W x f i j) else x).
Proof.
  intros g s n p L A R C0 X E Hin Hpin Hp Hn.
  destruct (C15_input_is_in_own_array g s n p L A R C0 X E Hin Hpin Hp Hn) as (i & H1 & H2).
  exists i, (Out i). split; [exact H1|]. split; [exact H2|].
  intros V d cl C H W x HC HH HW Hx. apply C33_flatten_partial; auto. discriminate.
Qed.
Print Assumptions C33_flatten_single_reader_partial.

Example C15_example :
  result_of (std_gemm_c Znum NN None (Out 0) ex_conv ex_w [100; 200] (fun v => v)
     (mem_of [(Out 0, ramp 32); (Temp, repeat 0 20)])) (Out 0) 8
  = Some [100; 100; 112; 118; 209; 212; 215; 224].
Proof. reflexivity. Qed.

(** With dilation 2 the GEMM code ignores the dilation (im2col uses h and w
    undilated), so it differs from the six-loop code. *)
Theorem C15_dilation_refuted : exists c (w b x : list Z) m,
  conv_dims Znum c w b x /\ dilation c = 2 /\ holds m (Out 0) x /\
  result_of (conv6_c Znum (Out 0) (Out 0) c w b (fun v => v) m) (Out 0) 1 <>
  result_of (std_gemm_c Znum NN None (Out 0) c w b (fun v => v) m) (Out 0) 1.
Proof.
  exists (mkConv 1 1 3 1 1 1 1 2 1 2 0 0 0 0), [1; 1], [0], [1; 10; 100],
    (mem_of [(Out 0, [1; 10; 100]); (Temp, [0; 0; 0])]).
  split; [constructor; cbn; try lia; reflexivity|]. split; [reflexivity|].
  split; [exists []; reflexivity|]. vm_compute. congruence.
Qed.
Print Assumptions C15_dilation_refuted.

(** ** C16 is false for each of the three variants. *)
Theorem C16_transposed_gemm_refuted : forall algo, algo = NT \/ algo = TN \/ algo = TT ->
  exists c (w b x : list Z) m,
    conv_dims Znum c w b x /\ dilation c = 1 /\ holds m (Out 0) x /\
    Z.max (ic c * ih c * iw c) (nf c * oh c * ow c) <= zlen (m Temp) /\
    Z.max (nf c * oh c * ow c) (patches_height c * patches_width c) <= zlen (m (Out 0)) /\
    result_of (std_gemm_c Znum algo None (Out 0) c w b (fun v => v) m) (Out 0) (Z.to_nat (nf c * oh c * ow c)) <>
    Some (convolution Znum c w b (fun v => v) x).
Proof.
  intros algo Ha.
  exists (mkConv 1 2 3 2 2 2 1 2 1 1 0 0 0 0), [2; 3; 5; 7], [0; 1], (tab 6 (fun k => k)),
    (mem_of [(Out 0, tab 60 (fun k => k)); (Temp, repeat 0 60)]).
  split; [constructor; cbn; try lia; reflexivity|]. split; [reflexivity|].
  split; [exists (tab 54 (fun k => k + 6)); reflexivity|].
  split; [vm_compute; congruence|]. split; [vm_compute; congruence|].
  destruct Ha as [->|[->| ->]]; vm_compute; congruence.
Qed.
Print Assumptions C16_transposed_gemm_refuted.

(** ** C17: the pointer table of the indirect GEMM.
    [denotes 0 x e]: the value behind a pointer, "&zero" or "&input[a]".
    [geometry]: sizes and pads as the constructor computes them (dilation 1).
    [covers]: every input row and column is read by some window. *)
Theorem C17_pointer_table : forall (N : num) c (x : list (T N)) p h w_ i j,
  geometry c -> covers c \/ (pr c = 0 /\ pl c = 0 /\ pb c = 0 /\ pt c = 0) ->
  zlen x = ic c * ih c * iw c ->
  0 <= p < ic c -> 0 <= h < kh c -> 0 <= w_ < kw c -> 0 <= i < oh c -> 0 <= j < ow c ->
  exists e, rdl (ppatches c) (((p * kh c + h) * kw c + w_) * (oh c * ow c) + (i * ow c + j)) = Some e /\
    denotes (n0 N) x e = zero_padded (ih c) (iw c) x p (i * strides c + h - pt c) (j * strides c + w_ - pl c) /\
    (forall a, e = Some a -> 0 <= a < ic c * ih c * iw c).
Proof.
  intros N c x p h w_ i j G Hcov Hx Hp Hh Hw Hi Hj.
  assert (EK : (p * kh c + h) * kw c + w_ = idx3 (kh c) (kw c) p h w_) by (unfold idx3; ring).
  destruct (ppatches_ok c N x G (idx3 (kh c) (kw c) p h w_) (i * ow c + j) Hcov Hx) as (e & E1 & E2 & E3).
  - apply idx3_range; assumption.
  - unfold patches_width. nia.
  - exists e. rewrite EK. split; [exact E1|]. split; [|exact E3]. rewrite E2. unfold patch.
    destruct (idx3_split (kh c) (kw c) p h w_) as (-> & -> & ->); [lia|assumption|assumption|].
    rewrite Z.div_add_l by lia. rewrite (Z.div_small j) by lia. rewrite Z.add_0_r.
    rewrite (Z.add_comm (i * ow c)), Z_mod_plus_full, Z.mod_small by lia. f_equal; ring.
Qed.
Print Assumptions C17_pointer_table.

Theorem C17_indirect_gemm_nn : forall (N : num), mul_comm_law N -> forall src out c w b act x,
  out <> Temp -> src <> Temp -> conv_dims N c w b x -> geometry c -> dilation c = 1 ->
  covers c \/ (pr c = 0 /\ pl c = 0 /\ pb c = 0 /\ pt c = 0) ->
  layer_ok (indirect_nn_c N src out c w b act) [(src, x)] out (nf c * oh c * ow c) (nf c * oh c * ow c)
    (convolution N c w b act x).
Proof. exact indirect_nn_ok. Qed.
Print Assumptions C17_indirect_gemm_nn.

(** In particular the image is covered when the stride is at most the kernel size
    and the last window reaches the end of the image (always so for SAME padding
    and for stride 1). *)
Theorem C17_overlapping_windows_cover : forall c, geometry c -> 0 < oh c -> 0 < ow c ->
  strides c <= kh c -> strides c <= kw c ->
  ih c + pt c <= (oh c - 1) * strides c + kh c -> iw c + pl c <= (ow c - 1) * strides c + kw c -> covers c.
Proof.
  intros c [] H1 H2 H3 H4 H5 H6. split; intros i Hi.
  - apply (covers_dim (ih c) (pt c) (pb c) (kh c) (strides c) (oh c)); auto. lia.
  - apply (covers_dim (iw c) (pl c) (pr c) (kw c) (strides c) (ow c)); auto. lia.
Qed.
Print Assumptions C17_overlapping_windows_cover.
Theorem C17_stride_1_covers : forall c, geometry c -> 0 < oh c -> 0 < ow c -> strides c = 1 -> covers c.
Proof.
  intros c G H1 H2 Hs. pose proof G as []. apply C17_overlapping_windows_cover; auto; try lia.
  - rewrite g_oh, Hs in *. unfold conv_output_size in *. rewrite Z.div_1_r in *. lia.
  - rewrite g_ow, Hs in *. unfold conv_output_size in *. rewrite Z.div_1_r in *. lia.
Qed.
Print Assumptions C17_stride_1_covers.

Example C17_example : geometry ex_conv /\ covers ex_conv /\
  result_of (indirect_nn_c Znum (Out 0) (Out 0) ex_conv ex_w [100; 200] (fun v => v)
     (mem_of [(Out 0, ramp 18); (Temp, repeat 0 20)])) (Out 0) 8
  = Some [100; 100; 112; 118; 209; 212; 215; 224].
Proof.
  assert (G : geometry ex_conv) by (constructor; cbn; try lia; reflexivity).
  split; [exact G|]. split; [|reflexivity].
  apply C17_overlapping_windows_cover; [exact G|cbn; lia..].
Qed.

(** The hypothesis is needed.  Kernel 1x1, stride 2, one padding column left and
    right, image 1x3: the windows read columns 0 (padding), 2 and 4 (padding);
    the code numbers the only element it meets 0 instead of 1. *)
Theorem C17_skipped_elements_refuted : exists c (x : list Z) e,
  geometry c /\ dilation c = 1 /\ zlen x = ic c * ih c * iw c /\
  rdl (ppatches c) 1 = Some e /\
  denotes 0 x e <> @zero_padded Znum (ih c) (iw c) x 0 (0 * strides c + 0 - pt c) (1 * strides c + 0 - pl c) /\
  (exists w b m, conv_dims Znum c w b x /\ holds m (Out 0) x /\
     result_of (indirect_nn_c Znum (Out 0) (Out 0) c w b (fun v => v) m) (Out 0) 3 <>
     result_of (conv6_c Znum (Out 0) (Out 0) c w b (fun v => v) m) (Out 0) 3).
Proof.
  exists (mkConv 1 1 3 1 1 3 1 1 2 1 0 1 0 1), [10; 20; 30], (Some 0).
  split; [constructor; cbn; try lia; reflexivity|]. split; [reflexivity|]. split; [reflexivity|].
  split; [reflexivity|]. split; [vm_compute; congruence|].
  exists [1], [0], (mem_of [(Out 0, [10; 20; 30]); (Temp, [0; 0; 0])]).
  split; [constructor; cbn; try lia; reflexivity|]. split; [exists []; reflexivity|]. vm_compute. congruence.
Qed.
Print Assumptions C17_skipped_elements_refuted.

(** ** C19. [- ((- n) / s)] is n/s rounded up. *)
Theorem C19_same_upper : forall in_h in_w kernel_h kernel_w strides,
  0 < in_h -> 0 < in_w -> 1 <= kernel_h -> 1 <= kernel_w -> 0 < strides ->
  let '(pright, pleft, pbottom, ptop) := compute_padding SameUpper in_h in_w kernel_h kernel_w strides 1 in
  0 <= ptop /\ ptop <= pbottom <= ptop + 1 /\ 0 <= pleft /\ pleft <= pright <= pleft + 1 /\
  conv_output_size in_h ptop pbottom kernel_h strides 1 = - ((- in_h) / strides) /\
  conv_output_size in_w pleft pright kernel_w strides 1 = - ((- in_w) / strides).
Proof.
  intros in_h in_w kernel_h kernel_w strides H1 H2 H3 H4 H5. cbn [compute_padding].
  destruct (pad_along_spec in_h kernel_h strides H1 H3 H5) as [P1 Q1].
  destruct (pad_along_spec in_w kernel_w strides H2 H4 H5) as [P2 Q2].
  set (a := pad_along in_h kernel_h strides 1) in *. set (b := pad_along in_w kernel_w strides 1) in *.
  unfold conv_output_size.
  replace (in_h + (a - a / 2) + a / 2 - kernel_h - (kernel_h - 1) * (1 - 1)) with (in_h + a - kernel_h) by ring.
  replace (in_w + (b - b / 2) + b / 2 - kernel_w - (kernel_w - 1) * (1 - 1)) with (in_w + b - kernel_w) by ring.
  pose proof (Z.div_mod a 2 ltac:(lia)). pose proof (Z.mod_pos_bound a 2 ltac:(lia)).
  pose proof (Z.div_mod b 2 ltac:(lia)). pose proof (Z.mod_pos_bound b 2 ltac:(lia)).
  repeat split; try assumption; lia.
Qed.
Print Assumptions C19_same_upper.

Theorem C19_same_lower : forall in_h in_w kernel_h kernel_w strides,
  0 < in_h -> 0 < in_w -> 1 <= kernel_h -> 1 <= kernel_w -> 0 < strides ->
  let '(pright, pleft, pbottom, ptop) := compute_padding SameLower in_h in_w kernel_h kernel_w strides 1 in
  0 <= pbottom /\ pbottom <= ptop <= pbottom + 1 /\ 0 <= pright /\ pright <= pleft <= pright + 1 /\
  conv_output_size in_h ptop pbottom kernel_h strides 1 = - ((- in_h) / strides) /\
  conv_output_size in_w pleft pright kernel_w strides 1 = - ((- in_w) / strides).
Proof.
  intros in_h in_w kernel_h kernel_w strides H1 H2 H3 H4 H5. cbn [compute_padding].
  destruct (pad_along_spec in_h kernel_h strides H1 H3 H5) as [P1 Q1].
  destruct (pad_along_spec in_w kernel_w strides H2 H4 H5) as [P2 Q2].
  set (a := pad_along in_h kernel_h strides 1) in *. set (b := pad_along in_w kernel_w strides 1) in *.
  unfold conv_output_size.
  replace (in_h + a / 2 + (a - a / 2) - kernel_h - (kernel_h - 1) * (1 - 1)) with (in_h + a - kernel_h) by ring.
  replace (in_w + b / 2 + (b - b / 2) - kernel_w - (kernel_w - 1) * (1 - 1)) with (in_w + b - kernel_w) by ring.
  pose proof (Z.div_mod a 2 ltac:(lia)). pose proof (Z.mod_pos_bound a 2 ltac:(lia)).
  pose proof (Z.div_mod b 2 ltac:(lia)). pose proof (Z.mod_pos_bound b 2 ltac:(lia)).
  repeat split; try assumption; lia.
Qed.
Print Assumptions C19_same_lower.

Theorem C19_valid_and_explicit : forall in_h in_w kernel_h kernel_w strides dil t l b r,
  compute_padding Valid in_h in_w kernel_h kernel_w strides dil = (0, 0, 0, 0) /\
  compute_padding (Explicit t l b r) in_h in_w kernel_h kernel_w strides dil = (r, l, b, t).
Proof. exact (fun _ _ _ _ _ _ _ _ _ _ => conj eq_refl eq_refl). Qed.
Print Assumptions C19_valid_and_explicit.

Example C19_example : compute_padding SameUpper 5 6 3 4 2 1 = (1, 1, 1, 1) /\ compute_padding SameLower 5 6 2 4 2 1 = (1, 1, 0, 1).
Proof. split; reflexivity. Qed.

(** The restriction to dilation 1 is needed: the formula subtracts the dilation
    instead of adding it, and SAME no longer keeps the size. *)
Theorem C19_dilation_refuted : exists n k d,
  let '(_, _, pbottom, ptop) := compute_padding SameUpper n n k k 1 d in
  conv_output_size n ptop pbottom k 1 d <> - ((- n) / 1).
Proof. exists 10, 3, 2. vm_compute. congruence. Qed.
Print Assumptions C19_dilation_refuted.
