(** * Properties C20 and C21: pooling.
    [window get IH IW size stride t l i j] (Pooling.v) lists the cells of the
    window of output (i,j) that lie inside the image.  [np_amax] is the maximum
    ([np_amax_spec]), [np_mean] the sum divided by the number of cells. *)
From Coq Require Import ZArith List Lia Bool QArith Qcanon.
Import ListNotations.
Open Scope Z_scope.
From Verif Require Import CMem Tensor Num NumInst Activation Padding Pooling PoolingProofs PoolingHWCProofs PropertiesMovement PropertiesActivation.

(** Every window meets the image when the constructor's size check
    (Pooling2D.py:119-134) holds and each pad is smaller than the kernel. *)
Definition pool_accepts (P : pool) : Prop :=
  0 < p_C P /\ 0 < p_IH P /\ 0 < p_IW P /\ 0 < p_size P /\ 0 < p_stride P /\
  0 <= p_top P < p_size P /\ 0 <= p_left P < p_size P /\ 0 <= p_bottom P < p_size P /\ 0 <= p_right P < p_size P /\
  p_OH P = (p_IH P + p_bottom P + p_top P - p_size P) / p_stride P + 1 /\
  p_OW P = (p_IW P + p_left P + p_right P - p_size P) / p_stride P + 1 /\ 0 <= p_OH P /\ 0 <= p_OW P.

Lemma one_row size stride I O before after k :
  0 < size -> 0 < stride -> 0 <= before < size -> 0 <= after < size -> 0 < I ->
  O = (I + after + before - size) / stride + 1 -> 0 <= k < O ->
  exists h, 0 <= h < size /\ 0 <= k * stride + h - before < I.
Proof.
  intros Hz Hs Hb Ha HI -> Hk.
  assert (D : k * stride <= I + after + before - size).
  { pose proof (Z.mul_div_le (I + after + before - size) stride Hs). nia. }
  exists (Z.max 0 (before - k * stride)). nia.
Qed.

Lemma window_nonempty {V} (get : Z -> Z -> V) P i j : pool_accepts P -> 0 <= i < p_OH P -> 0 <= j < p_OW P ->
  window get (p_IH P) (p_IW P) (p_size P) (p_stride P) (p_top P) (p_left P) i j <> [].
Proof.
  intros (HC & HIH & HIW & Hz & Hs & Ht & Hl & Hb & Hr & EH & EW & _ & _) Hi Hj E.
  destruct (one_row (p_size P) (p_stride P) (p_IH P) (p_OH P) (p_top P) (p_bottom P) i) as (h & Hh & Rh); auto.
  destruct (one_row (p_size P) (p_stride P) (p_IW P) (p_OW P) (p_left P) (p_right P) j) as (w & Hw & Rw); auto.
  { rewrite EW. f_equal. f_equal. lia. }
  assert (I : In (get (i * p_stride P + h - p_top P) (j * p_stride P + w - p_left P))
     (window get (p_IH P) (p_IW P) (p_size P) (p_stride P) (p_top P) (p_left P) i j)).
  { unfold window. apply in_flat_map. exists h. split; [apply in_zrange; lia|]. apply in_flat_map. exists w. split; [apply in_zrange; lia|].
    cbv zeta. destruct (Z.leb_spec 0 (i * p_stride P + h - p_top P)); [|lia]. destruct (Z.ltb_spec (i * p_stride P + h - p_top P) (p_IH P)); [|lia].
    destruct (Z.leb_spec 0 (j * p_stride P + w - p_left P)); [|lia]. destruct (Z.ltb_spec (j * p_stride P + w - p_left P) (p_IW P)); [|lia].
    left. reflexivity. }
  rewrite E in I. destruct I.
Qed.

(** ** C20: with pad_top = pad_left the generated code takes the maximum, resp.
    the mean, over exactly the in-range cells of the window. *)
Definition image {V} (d : V) (P : pool) (x : list V) (c : Z) : Z -> Z -> V := fun a b => at3 d (p_IH P) (p_IW P) x c a b.

Theorem C20_max_pool : forall (N : num) (ninf : T N) P src out act x,
  out <> Temp -> src <> Temp -> order_laws N -> pool_accepts P -> p_top P = p_left P -> zlen x = p_C P * p_IH P * p_IW P ->
  exists y, layer_ok (max_pool_c N ninf P src out act) [(src, x)] out (p_C P * p_OH P * p_OW P) (p_C P * p_OH P * p_OW P)
      (tab3 (p_C P) (p_OH P) (p_OW P) (fun f i j => act (y f i j))) /\
    forall f i j, 0 <= f < p_C P -> 0 <= i < p_OH P -> 0 <= j < p_OW P ->
      let w := window (image (n0 N) P x f) (p_IH P) (p_IW P) (p_size P) (p_stride P) (p_top P) (p_left P) i j in
      In (y f i j) w /\ forall v, In v w -> nlt N (y f i j) v = false.
Proof.
  intros N ninf P src out act x Ho Hs L A E Hx.
  exists (fun f i j => np_amax N ninf (window (image (n0 N) P x f) (p_IH P) (p_IW P) (p_size P) (p_stride P) (p_top P) (p_left P) i j)).
  split.
  - assert (SO : sizes_ok P) by (unfold sizes_ok; destruct A as (? & ? & ? & ? & ? & ? & ? & ? & ? & ? & ? & ? & ?); lia).
    pose proof (max_pool_ok N ninf P src out act x Ho Hs SO Hx) as G. rewrite E in *. exact G.
  - intros f i j Hf Hi Hj w. apply np_amax_spec; [exact L|]. apply window_nonempty; assumption.
Qed.
Print Assumptions C20_max_pool.

Theorem C20_average_pool : forall (N : num) P src out act x,
  out <> Temp -> src <> Temp -> pool_accepts P -> p_top P = p_left P -> zlen x = p_C P * p_IH P * p_IW P ->
  layer_ok (avg_pool_c N P src out act) [(src, x)] out (p_C P * p_OH P * p_OW P) (p_C P * p_OH P * p_OW P)
    (tab3 (p_C P) (p_OH P) (p_OW P) (fun f i j =>
      let w := window (image (n0 N) P x f) (p_IH P) (p_IW P) (p_size P) (p_stride P) (p_top P) (p_left P) i j in
      act (ndiv N (fold_left (nadd N) w (n0 N)) (nofZ N (zlen w))))) /\
  forall f i j, 0 <= i < p_OH P -> 0 <= j < p_OW P ->
    0 < zlen (window (image (n0 N) P x f) (p_IH P) (p_IW P) (p_size P) (p_stride P) (p_top P) (p_left P) i j).
Proof.
  intros N P src out act x Ho Hs A E Hx. split.
  - assert (SO : sizes_ok P) by (unfold sizes_ok; destruct A as (? & ? & ? & ? & ? & ? & ? & ? & ? & ? & ? & ? & ?); lia).
    pose proof (avg_pool_ok N P src out act x Ho Hs SO Hx) as G. rewrite E in *. exact G.
  - intros f i j Hi Hj. pose proof (window_nonempty (image (n0 N) P x f) P i j A Hi Hj) as W.
    destruct (window _ _ _ _ _ _ _ _ _); [congruence|]. rewrite zlen_cons. pose proof (zlen_nonneg l). lia.
Qed.
Print Assumptions C20_average_pool.

(** The generated code never leaves its arrays, whatever the pads. *)
Theorem C20_pool_any_padding : forall (N : num) (ninf : T N) P src out act x,
  out <> Temp -> src <> Temp -> sizes_ok P -> zlen x = p_C P * p_IH P * p_IW P ->
  layer_ok (max_pool_c N ninf P src out act) [(src, x)] out (p_C P * p_OH P * p_OW P) (p_C P * p_OH P * p_OW P)
    (tab3 (p_C P) (p_OH P) (p_OW P) (fun f i j => act (np_amax N ninf
      (window (image (n0 N) P x f) (p_IH P) (p_IW P) (p_size P) (p_stride P) (p_left P) (p_top P) i j)))) /\
  layer_ok (avg_pool_c N P src out act) [(src, x)] out (p_C P * p_OH P * p_OW P) (p_C P * p_OH P * p_OW P)
    (tab3 (p_C P) (p_OH P) (p_OW P) (fun f i j => act (np_mean N
      (window (image (n0 N) P x f) (p_IH P) (p_IW P) (p_size P) (p_stride P) (p_left P) (p_top P) i j)))).
Proof. intros. split; [apply max_pool_ok|apply avg_pool_ok]; assumption. Qed.
Print Assumptions C20_pool_any_padding.

(** channels_last code (tensors laid out row, column, channel), same padding on both sides. *)
Theorem C20_max_pool_channels_last : forall (N : num) (ninf : T N) P src out x,
  out <> Temp -> src <> Temp -> order_laws N -> pool_accepts P -> p_top P = p_left P -> zlen x = p_IH P * p_IW P * p_C P ->
  (forall v, In v x -> nlt N ninf v = true) ->
  exists y, layer_ok (hwc_max N ninf P src out) [(src, x)] out (p_OH P * p_OW P * p_C P) (p_OH P * p_OW P * p_C P)
      (tab3 (p_OH P) (p_OW P) (p_C P) y) /\
    forall i j c, 0 <= i < p_OH P -> 0 <= j < p_OW P -> 0 <= c < p_C P ->
      let w := window (fun a b => at3 (n0 N) (p_IW P) (p_C P) x a b c) (p_IH P) (p_IW P) (p_size P) (p_stride P) (p_top P) (p_left P) i j in
      In (y i j c) w /\ forall v, In v w -> nlt N (y i j c) v = false.
Proof.
  intros N ninf P src out x Ho Hs L A E Hx Hinf.
  exists (fun i j c => fold_left (np_maximum N) (hwc_window N P x c i j) ninf). split.
  - apply hwc_max_ok; auto. unfold sizes_ok; destruct A as (? & ? & ? & ? & ? & ? & ? & ? & ? & ? & ? & ? & ?); lia.
  - intros i j c Hi Hj Hc w.
    assert (W : hwc_window N P x c i j = w) by (unfold hwc_window, w, hwc_get; rewrite E; reflexivity). rewrite W.
    assert (NE : w <> []) by (apply window_nonempty; assumption).
    assert (LT : forall v, In v w -> nlt N ninf v = true).
    { intros v Hv. apply Hinf. unfold w, window in Hv. apply in_flat_map in Hv. destruct Hv as (h & Hh & Hv).
      apply in_flat_map in Hv. destruct Hv as (q & Hq & Hv). cbv zeta in Hv.
      match type of Hv with In _ (if ?b then _ else _) => destruct b eqn:B end; [|destruct Hv].
      destruct Hv as [<-|[]]. rewrite !andb_true_iff, !Z.leb_le, !Z.ltb_lt in B.
      unfold at3, nthZ. destruct (rdl_some x (idx3 (p_IW P) (p_C P) (i * p_stride P + h - p_top P) (j * p_stride P + q - p_left P) c)) as (u & Eu).
      - rewrite Hx. apply idx3_range; lia.
      - rewrite Eu. unfold rdl in Eu. destruct (_ <? 0); [discriminate|]. eapply nth_error_In; eauto. }
    pose proof (np_amax_spec N ninf w L NE) as G. destruct w as [|u w']; [congruence|].
    cbn [fold_left]. unfold np_maximum at 2. unfold np_maximum at 3. rewrite (LT u) by (left; reflexivity). exact G.
Qed.
Print Assumptions C20_max_pool_channels_last.

Example C20_example :
  let P := mkPool 1 3 3 2 2 2 2 0 0 1 1 in
  pool_accepts P /\
  result_of (max_pool_c Znum (-1000 : T Znum) P (Out 0) (Out 0) (fun v => v) (mem_of [(Out 0, ramp 9); (Temp, ramp 4)])) (Out 0) 4
    = Some [4; 5; 7; 8] /\
  result_of (hwc_max Znum (-1000 : T Znum) P (Out 0) (Out 0) (mem_of [(Out 0, ramp 9); (Temp, ramp 4)])) (Out 0) 4
    = Some [4; 5; 7; 8] /\
  result_of (avg_pool_c Znum P (Out 0) (Out 0) (fun v => v) (mem_of [(Out 0, map (Z.mul 4) (ramp 9)); (Temp, ramp 4)])) (Out 0) 4
    = Some [8; 14; 26; 32].
Proof. cbv zeta. split; [unfold pool_accepts; cbn; lia|]. repeat split. Qed.

(** ** C21 holds without padding, for a linear activation. *)
Theorem C21_no_padding_partial : forall (N : num) (ninf : T N) P src out x,
  out <> Temp -> src <> Temp -> sizes_ok P -> 0 <= p_stride P ->
  p_top P = 0 -> p_left P = 0 -> p_bottom P = 0 -> p_right P = 0 -> zlen x = p_C P * p_IH P * p_IW P ->
  layer_ok (max_pool_c N ninf P src out (fun v => v)) [(src, x)] out (p_C P * p_OH P * p_OW P) (p_C P * p_OH P * p_OW P)
    (max_pool_py N ninf P x) /\
  layer_ok (avg_pool_c N P src out (fun v => v)) [(src, x)] out (p_C P * p_OH P * p_OW P) (p_C P * p_OH P * p_OW P)
    (avg_pool_py N P x).
Proof.
  intros N ninf P src out x Ho Hs SO Hst E1 E2 E3 E4 Hx. pose proof SO as (HC & HH & HW).
  pose proof (max_pool_ok N ninf P src out (fun v => v) x Ho Hs SO Hx) as G1.
  pose proof (avg_pool_ok N P src out (fun v => v) x Ho Hs SO Hx) as G2.
  rewrite E1, E2 in G1, G2. unfold max_pool_py, avg_pool_py. split.
  - erewrite tab3_ext; [exact G1|auto..]. intros c i j Hc Hi Hj. cbv beta. rewrite py_window_unpadded by (auto; lia). reflexivity.
  - erewrite tab3_ext; [exact G2|auto..]. intros c i j Hc Hi Hj. cbv beta. rewrite py_window_unpadded by (auto; lia). reflexivity.
Qed.
Print Assumptions C21_no_padding_partial.

Example C21_example :
  let P := mkPool 1 2 2 1 1 2 1 0 0 0 0 in
  max_pool_py Znum (-1000 : T Znum) P [3; 9; 5; 1] = [9] /\ avg_pool_py Znum P [3; 8; 5; 4] = [5].
Proof. split; reflexivity. Qed.

(** C21 fails when the pads are not all zero, and C20 when the top and left
    pads differ.
    1. All four pads non-zero: Python averages the padding zeros, the generated
       code does not. *)
Definition run_pool (code : mem Z -> option (mem Z)) (x : list Z) (n : nat) : option (list Z) :=
  result_of (code (mem_of [(Out 0, x); (Out 1, repeat 0 n); (Temp, repeat 0 n)])) (Out 1) n.

Theorem C21_average_padding_refuted : exists (P : pool) (x : list Z),
  pool_accepts P /\ p_top P = p_left P /\ zlen x = p_C P * p_IH P * p_IW P /\
  run_pool (avg_pool_c Znum P (Out 0) (Out 1) (fun v => v)) x 4 = Some [4; 4; 4; 4] /\
  avg_pool_py Znum P x = [1; 1; 1; 1].
Proof.
  exists (mkPool 1 1 1 2 2 2 1 1 1 1 1), [4].
  split; [unfold pool_accepts; cbn; lia|]. repeat split.
Qed.
Print Assumptions C21_average_padding_refuted.

(** 2. All four pads non-zero: Python's maximum also ranges over padding
       zeros, so it is wrong when the whole window is negative. *)
Theorem C21_max_padding_refuted : exists (P : pool) (x : list Z),
  pool_accepts P /\ p_top P = p_left P /\ zlen x = p_C P * p_IH P * p_IW P /\
  run_pool (max_pool_c Znum (-1000 : T Znum) P (Out 0) (Out 1) (fun v => v)) x 4 = Some [-4; -4; -4; -4] /\
  max_pool_py Znum (-1000 : T Znum) P x = [0; 0; 0; 0].
Proof.
  exists (mkPool 1 1 1 2 2 2 1 1 1 1 1), [-4].
  split; [unfold pool_accepts; cbn; lia|]. repeat split.
Qed.
Print Assumptions C21_max_padding_refuted.

(** 3. Some but not all pads non-zero (here top and left only): Python does not
       pad at all, its windows start at another place. *)
Theorem C21_partial_padding_refuted : exists (P : pool) (x : list Z),
  pool_accepts P /\ p_top P = p_left P /\ p_bottom P = 0 /\ p_right P = 0 /\ zlen x = p_C P * p_IH P * p_IW P /\
  run_pool (max_pool_c Znum (-1000 : T Znum) P (Out 0) (Out 1) (fun v => v)) x 4 = Some [1; 3; 7; 9] /\
  max_pool_py Znum (-1000 : T Znum) P x = [5; 6; 8; 9].
Proof.
  exists (mkPool 1 3 3 2 2 2 2 1 1 0 0), [1; 2; 3; 4; 5; 6; 7; 8; 9].
  split; [unfold pool_accepts; cbn; lia|]. repeat split.
Qed.
Print Assumptions C21_partial_padding_refuted.

(** 4. A fused activation is applied by the generated code and not by Python. *)
Theorem C21_activation_refuted : exists (P : pool) (x : list Z) (relu : Z -> Z),
  pool_accepts P /\ all_padded P = false /\ zlen x = p_C P * p_IH P * p_IW P /\
  p_top P = 0 /\ p_left P = 0 /\ p_bottom P = 0 /\ p_right P = 0 /\
  (forall v, relu v = Z.max 0 v) /\
  run_pool (max_pool_c Znum (-1000 : T Znum) P (Out 0) (Out 1) relu) x 1 = Some [0] /\
  max_pool_py Znum (-1000 : T Znum) P x = [-1].
Proof.
  exists (mkPool 1 2 2 1 1 2 1 0 0 0 0), [-1; -2; -3; -4], (Z.max 0).
  split; [unfold pool_accepts; cbn; lia|]. repeat split.
Qed.
Print Assumptions C21_activation_refuted.

(** C20: with different top and left pads the generated code pools the wrong
    cells: rows are shifted by the left pad and columns by the top pad. *)
Theorem C20_unequal_pads_refuted : exists (P : pool) (x : list Z),
  pool_accepts P /\ p_top P <> p_left P /\ zlen x = p_C P * p_IH P * p_IW P /\
  run_pool (max_pool_c Znum (-1000 : T Znum) P (Out 0) (Out 1) (fun v => v)) x 6 <>
  Some (tab3 (p_C P) (p_OH P) (p_OW P) (fun f i j => np_amax Znum (-1000 : T Znum)
      (window (image 0 P x f) (p_IH P) (p_IW P) (p_size P) (p_stride P) (p_top P) (p_left P) i j))).
Proof.
  exists (mkPool 1 2 3 3 2 2 1 1 0 1 0), [1; 2; 3; 4; 5; 6].
  split; [unfold pool_accepts; cbn; lia|]. split; [cbn; lia|]. split; [reflexivity|]. vm_compute. discriminate.
Qed.
Print Assumptions C20_unequal_pads_refuted.

(** channels_last average: the mean of every window that lies inside the image
    (all of them without padding). *)
Theorem C20_average_pool_channels_last : forall (N : num) P src out x,
  out <> Temp -> src <> Temp -> field_laws N -> pool_accepts P -> p_top P = p_left P -> zlen x = p_IH P * p_IW P * p_C P ->
  exists y, layer_ok (hwc_avg N P src out) [(src, x)] out (p_OH P * p_OW P * p_C P) (p_OH P * p_OW P * p_C P)
      (tab3 (p_OH P) (p_OW P) (p_C P) y) /\
    forall i j c, 0 <= i < p_OH P -> 0 <= j < p_OW P -> 0 <= c < p_C P ->
      let w := window (fun a b => at3 (n0 N) (p_IW P) (p_C P) x a b c) (p_IH P) (p_IW P) (p_size P) (p_stride P) (p_top P) (p_left P) i j in
      zlen w = p_size P * p_size P -> y i j c = np_mean N w.
Proof.
  intros N P src out x Ho Hs F A E Hx.
  exists (fun i j c => nmul N (fold_left (nadd N) (hwc_window N P x c i j) (n0 N)) (ndiv N (n1 N) (nofZ N (p_size P * p_size P)))). split.
  - apply hwc_avg_ok; auto. unfold sizes_ok; destruct A as (? & ? & ? & ? & ? & ? & ? & ? & ? & ? & ? & ? & ?); lia.
  - intros i j c Hi Hj Hc w Hw.
    assert (W : hwc_window N P x c i j = w) by (unfold hwc_window, w, hwc_get; rewrite E; reflexivity). rewrite W.
    unfold np_mean. rewrite Hw. rewrite <- (div_mul N F). rewrite (mul_comm N (fl_ring N F)), (mul_1_l N (fl_ring N F)). reflexivity.
Qed.
Print Assumptions C20_average_pool_channels_last.
(** The windows inside the image. *)
Lemma full_window {V} (get : Z -> Z -> V) IH IW size stride t l i j :
  0 <= size -> t <= i * stride -> i * stride + size - t <= IH -> l <= j * stride -> j * stride + size - l <= IW ->
  zlen (window get IH IW size stride t l i j) = size * size.
Proof.
  intros Hs H1 H2 H3 H4. unfold window.
  assert (ZR : zlen (zrange size) = size) by (unfold zrange; rewrite zlen_tab by lia; reflexivity).
  assert (IR : forall k, In k (zrange size) -> 0 <= k < size).
  { intros k Hk. apply in_zrange in Hk. exact Hk. }
  assert (G : forall (A B : Type) (f : A -> list B) n (L : list A), (forall a, In a L -> zlen (f a) = n) -> zlen (flat_map f L) = zlen L * n).
  { intros A B f n L HL. induction L as [|a L IHL]; [reflexivity|]. cbn [flat_map]. rewrite zlen_app, zlen_cons.
    rewrite (HL a (or_introl eq_refl)), IHL by (intros; apply HL; right; assumption). lia. }
  rewrite (G _ _ _ size); [rewrite ZR; reflexivity|]. intros h Hh. apply IR in Hh. rewrite (G _ _ _ 1); [rewrite ZR; lia|].
  intros w Hw. apply IR in Hw. cbv zeta.
  replace (_ && _ && _ && _) with true; [reflexivity|]. symmetry. rewrite !andb_true_iff, !Z.leb_le, !Z.ltb_lt. lia.
Qed.
Theorem C20_no_padding_windows_are_full : forall (V : Type) (get : Z -> Z -> V) P i j,
  pool_accepts P -> p_top P = 0 -> p_left P = 0 -> p_bottom P = 0 -> p_right P = 0 -> 0 <= i < p_OH P -> 0 <= j < p_OW P ->
  zlen (window get (p_IH P) (p_IW P) (p_size P) (p_stride P) (p_top P) (p_left P) i j) = p_size P * p_size P.
Proof.
  intros V get P i j (A1 & A2 & A3 & A4 & A5 & A6 & A7 & A8 & A9 & A10 & A11 & A12 & A13) Ht Hl Hb Hr Hi Hj.
  rewrite Hb, Ht in A10. rewrite Hl, Hr in A11. rewrite Ht, Hl.
  assert (G : forall I O k, O = (I + 0 + 0 - p_size P) / p_stride P + 1 -> 0 <= k < O -> k * p_stride P + p_size P <= I).
  { intros I O k EO Hk. pose proof (Z.mul_div_le (I + 0 + 0 - p_size P) (p_stride P) ltac:(lia)).
    set (q := (I + 0 + 0 - p_size P) / p_stride P) in *. assert (k <= q) by lia.
    pose proof (Z.mul_le_mono_nonneg_l k q (p_stride P) ltac:(lia) ltac:(lia)). lia. }
  pose proof (Z.mul_nonneg_nonneg i (p_stride P) ltac:(lia) ltac:(lia)).
  pose proof (Z.mul_nonneg_nonneg j (p_stride P) ltac:(lia) ltac:(lia)).
  pose proof (G _ _ _ A10 Hi). pose proof (G _ _ _ A11 Hj). apply full_window; lia.
Qed.
Print Assumptions C20_no_padding_windows_are_full.

(** The channels-last average of two channels of a 2 x 2 image, window 2. *)
Example C20_channels_last_nonvacuous :
  let P := mkPool 2 2 2 1 1 2 1 0 0 0 0 in
  pool_accepts P /\
  option_map (map this) (result_of (hwc_avg Qcnum P (Out 0) (Out 1)
     (mem_of [(Out 0, map (fun v => Q2Qc (inject_Z v)) [1; 10; 2; 20; 3; 30; 6; 60]); (Out 1, repeat (n0 Qcnum) 2); (Temp, repeat (n0 Qcnum) 2)])) (Out 1) 2)
    = Some (map inject_Z [3; 30]).
Proof. split; [unfold pool_accepts; cbn; lia|]. vm_compute. reflexivity. Qed.

(** C20: the channels-last average divides by the area of the whole window,
    the channels-first one by the number of cells inside the image. *)
Theorem C20_average_layouts_differ_refuted : exists (P : pool) (x : list Z),
  pool_accepts P /\ p_top P = p_left P /\ zlen x = p_C P * p_IH P * p_IW P /\ p_C P = 1 /\
  option_map (map this) (result_of (hwc_avg Qcnum P (Out 0) (Out 1)
     (mem_of [(Out 0, map (fun v => Q2Qc (inject_Z v)) x); (Out 1, repeat (n0 Qcnum) 4); (Temp, repeat (n0 Qcnum) 4)])) (Out 1) 4)
    = Some (map inject_Z [1; 1; 1; 1]) /\
  option_map (map this) (result_of (avg_pool_c Qcnum P (Out 0) (Out 1) (fun v => v)
     (mem_of [(Out 0, map (fun v => Q2Qc (inject_Z v)) x); (Out 1, repeat (n0 Qcnum) 4); (Temp, repeat (n0 Qcnum) 4)])) (Out 1) 4)
    = Some (map inject_Z [4; 4; 4; 4]).
Proof.
  exists (mkPool 1 1 1 2 2 2 1 1 1 1 1), [4].
  split; [unfold pool_accepts; cbn; lia|]. repeat split.
Qed.
Print Assumptions C20_average_layouts_differ_refuted.
