(** * Property C81: nearest-neighbour resize with the rounding of its coordinates.
    The specification is that of C31: [documented] is the coordinate of ONNX's Resize
    (an exact rational), [rounds] its rounding modes.  [pixel_c] and [pixel_py] compute
    with floating-point numbers what the generated C code and Python compute. *)
From Coq Require Import ZArith List Lia Bool Reals Lra QArith Qreals Qround Lqa.
From Flocq Require Import Core.
Import ListNotations.
From Verif Require Import CMem Tensor Num NumInst Movement Rounding FloatFormats Resize ResizeProofs FloatResize PropertiesMovement PropertiesResize.
Open Scope Z_scope.

(** The scale is the quotient of the sizes. *)
Definition between (scale : Q) (isize osize : Z) : Prop := (scale * inject_Z isize == inject_Z osize)%Q.

Lemma between_value scale isize osize : 1 <= isize -> 1 <= osize -> between scale isize osize ->
  exists a b, isize = Z.pos a /\ osize = Z.pos b /\ (scale == Qmake (Z.pos b) a)%Q.
Proof.
  intros Ha Hb H. destruct isize as [|a|]; try lia. destruct osize as [|b|]; try lia. exists a, b. repeat split.
  unfold between in H. unfold Qeq in *. cbn in *. rewrite Z.mul_1_r in *. lia.
Qed.
Lemma half_value scale isize osize i : 1 <= isize -> 1 <= osize -> between scale isize osize ->
  ((inject_Z i + (1 # 2)) / scale - (1 # 2) == Qmake ((2 * i + 1) * isize - osize) (Z.to_pos (2 * osize)))%Q.
Proof.
  intros Ha Hb H. destruct (between_value _ _ _ Ha Hb H) as (a & b & -> & -> & E). rewrite E.
  unfold Qeq, Qdiv, Qinv, Qmult, Qminus, Qplus, Qopp, inject_Z. cbn [Qnum Qden]. change (2 * Z.pos b) with (Z.pos (2 * b)). cbn [Z.to_pos]. lia.
Qed.
Lemma asymmetric_value scale isize osize i : 1 <= isize -> 1 <= osize -> between scale isize osize ->
  (inject_Z i / scale == Qmake (2 * i * isize) (Z.to_pos (2 * osize)))%Q.
Proof.
  intros Ha Hb H. destruct (between_value _ _ _ Ha Hb H) as (a & b & -> & -> & E). rewrite E.
  unfold Qeq, Qdiv, Qinv, Qmult, inject_Z. cbn [Qnum Qden]. change (2 * Z.pos b) with (Z.pos (2 * b)). cbn [Z.to_pos]. lia.
Qed.
(** The documented pixel, as an integer. *)
Lemma documented_pick md nm scale isize osize i k : 1 <= isize -> 1 <= osize -> between scale isize osize ->
  md = HalfPixel \/ md = Asymmetric \/ (md = PytorchHalfPixel /\ 1 < osize) ->
  rounds nm (documented md scale isize osize i) k -> k = pick nm (numer md isize osize i) osize.
Proof.
  intros Ha Hb H Hm R. rewrite <- pick_nearest by lia.
  eapply rounds_unique; [|exact R|apply nearest_rounds].
  destruct Hm as [->|[->|[-> H1]]]; cbn [documented numer].
  - apply half_value; auto.
  - apply asymmetric_value; auto.
  - destruct (Z.ltb_spec 1 osize); [|lia]. apply half_value; auto.
Qed.
Lemma documented_corners scale isize osize i k : 1 < osize ->
  rounds NFloor (documented AlignCorners scale isize osize i) k -> k = i * (isize - 1) / (osize - 1).
Proof.
  intros Hb R. eapply rounds_unique; [reflexivity|exact R|]. cbn [documented].
  replace (i * (isize - 1) / (osize - 1)) with (Qfloor (Qmake (i * (isize - 1)) (Z.to_pos (osize - 1)))) by (unfold Qfloor; rewrite Z2Pos.id by lia; reflexivity).
  assert (E : (inject_Z i * inject_Z (isize - 1) / inject_Z (osize - 1) == Qmake (i * (isize - 1)) (Z.to_pos (osize - 1)))%Q).
  { destruct (osize - 1) as [|c|] eqn:Ec; try lia. unfold Qeq, Qdiv, Qinv, Qmult, inject_Z. cbn. lia. }
  rewrite <- (Qfloor_comp _ _ E). apply (nearest_rounds NFloor).
Qed.
Lemma documented_single nm scale isize k : rounds nm (documented PytorchHalfPixel scale isize 1 0) k -> k = 0.
Proof. intros R. eapply rounds_unique; [reflexivity|exact R|]. cbn [documented]. change (1 <? 1) with false. cbv iota. change (inject_Z 0) with 0%Q. destruct nm; cbn [rounds]; change (inject_Z 0) with 0%Q; split; lra. Qed.

(** C81: whatever the sizes, while their product is at most 2^22 = 4194304 (an axis of 1024
    pixels enlarged to 4096), storing the coordinate in a [float] does not change the pixel:
    the generated code picks the one the exact arithmetic of the documentation picks. *)
Theorem C81_c_pixel_partial : forall md nm scale isize osize i k,
  1 <= isize -> 1 <= osize -> isize * osize <= 4194304 -> between scale isize osize -> 0 <= i < osize ->
  (md = AlignCorners -> nm = NFloor /\ osize <> 1) ->
  rounds nm (documented md scale isize osize i) k ->
  pixel_c nm md (scale_of isize osize) isize osize i = Some k.
Proof.
  intros md nm scale isize osize i k Ha Hb Hab Hs Hi HA R. destruct md.
  - rewrite (documented_pick HalfPixel nm scale isize osize i k) by auto. apply pixel_c_ok; auto.
  - destruct (Z.eq_dec osize 1) as [->|N].
    + assert (i = 0) by lia. subst i. rewrite (documented_single _ _ _ _ R). unfold pixel_c. cbn [position_c]. change (1 <? 1) with false. cbv iota. cbn [bind]. f_equal.
      apply pixel_zero. exact float_0.
    + assert (1 < osize) by lia. rewrite (documented_pick PytorchHalfPixel nm scale isize osize i k) by auto. apply pixel_c_ok; auto.
  - destruct (HA eq_refl) as [-> N]. assert (1 < osize) by lia. rewrite (documented_corners scale isize osize i k) by auto. apply pixel_c_corners; auto.
  - rewrite (documented_pick Asymmetric nm scale isize osize i k) by auto. apply pixel_c_ok; auto.
Qed.
Print Assumptions C81_c_pixel_partial.

(** The same for Python, whose coordinates are doubles, when the scale is represented exactly
    (enlargement or reduction by a power of two, by an integer, ...). *)
Theorem C81_python_pixel_partial : forall md nm scale isize osize i k,
  1 <= isize -> 1 <= osize -> isize * osize <= 4194304 -> between scale isize osize -> 0 <= i < osize ->
  (md = AlignCorners -> nm = NFloor /\ osize <> 1) ->
  (scale_of isize osize * IZR isize = IZR osize)%R ->
  rounds nm (documented md scale isize osize i) k ->
  pixel_py nm md (scale_of isize osize) isize osize i = Some k.
Proof.
  intros md nm scale isize osize i k Ha Hb Hab Hs Hi HA E R. symmetry in E. destruct md.
  - rewrite (documented_pick HalfPixel nm scale isize osize i k) by auto. apply pixel_py_ok; auto.
  - destruct (Z.eq_dec osize 1) as [->|N].
    + assert (i = 0) by lia. subst i. rewrite (documented_single _ _ _ _ R). unfold pixel_py. cbn [position_py]. change (1 <? 1) with false. cbv iota. cbn [bind]. f_equal.
      apply pixel_zero. exact double_0.
    + assert (1 < osize) by lia. rewrite (documented_pick PytorchHalfPixel nm scale isize osize i k) by auto. apply pixel_py_ok; auto.
  - destruct (HA eq_refl) as [-> N]. assert (1 < osize) by lia. rewrite (documented_corners scale isize osize i k) by auto. apply pixel_py_corners; auto.
  - rewrite (documented_pick Asymmetric nm scale isize osize i k) by auto. apply pixel_py_ok; auto.
Qed.
Print Assumptions C81_python_pixel_partial.

(** ** The layer. *)
Definition sizes_ok (p : rparams) : Prop :=
  1 <= rH p /\ 1 <= rW p /\ 1 <= rOH p /\ 1 <= rOW p /\ rH p * rOH p <= 4194304 /\ rW p * rOW p <= 4194304 /\
  between (rsh p) (rH p) (rOH p) /\ between (rsw p) (rW p) (rOW p).
Lemma between_resized scale isize osize : between scale isize osize -> osize = resized scale isize.
Proof. intros H. unfold resized. rewrite Qmult_comm. unfold between in H. rewrite (Qfloor_comp _ _ H). symmetry. apply Qfloor_Z. Qed.
Lemma between_positive scale isize osize : 1 <= isize -> 1 <= osize -> between scale isize osize -> (0 < scale)%Q.
Proof. intros Ha Hb H. destruct (between_value _ _ _ Ha Hb H) as (a & b & _ & _ & ->). reflexivity. Qed.
Lemma sizes_wf p : 0 <= rC p -> sizes_ok p -> resize_wf p.
Proof.
  intros HC (H1 & H2 & H3 & H4 & _ & _ & H5 & H6). repeat split; try lia.
  - eapply between_positive; [exact H1|exact H3|exact H5].
  - eapply between_positive; [exact H2|exact H4|exact H6].
  - apply between_resized; assumption.
  - apply between_resized; assumption.
Qed.
Lemma axis_same_c md nm scale isize osize i :
  1 <= isize -> 1 <= osize -> isize * osize <= 4194304 -> between scale isize osize -> 0 <= i < osize -> always_inside md nm scale ->
  (md = AlignCorners -> nm = NFloor /\ osize <> 1) ->
  exists u, coord_c md scale isize osize i = Some u /\ pixel_c nm md (scale_of isize osize) isize osize i = Some (Resize.nearest nm u).
Proof.
  intros Ha Hb Hab Hs Hi A HA.
  destruct (axis_ok md nm scale isize osize (between_positive _ _ _ Ha Hb Hs) (between_resized _ _ _ Hs) A HA) as (k & K).
  destruct (K i Hi) as (R & _ & (u & E1 & E2) & _). exists u. split; [exact E1|]. rewrite E2. apply (C81_c_pixel_partial md nm scale); auto.
Qed.
Lemma axis_same_py md nm scale isize osize i :
  1 <= isize -> 1 <= osize -> isize * osize <= 4194304 -> between scale isize osize -> 0 <= i < osize -> always_inside md nm scale ->
  (md = AlignCorners -> nm = NFloor /\ osize <> 1) -> (scale_of isize osize * IZR isize = IZR osize)%R ->
  exists u, coord_py md scale isize osize i = Some u /\ pixel_py nm md (scale_of isize osize) isize osize i = Some (Resize.nearest nm u).
Proof.
  intros Ha Hb Hab Hs Hi A HA E.
  destruct (axis_ok md nm scale isize osize (between_positive _ _ _ Ha Hb Hs) (between_resized _ _ _ Hs) A HA) as (k & K).
  destruct (K i Hi) as (R & _ & _ & u & E1 & E2). exists u. split; [exact E1|]. rewrite E2. apply (C81_python_pixel_partial md nm scale); auto.
Qed.

(** The generated layer writes the activation of the documented pixels, as it would with
    exact coordinates (C31). *)
Theorem C81_layer_partial : forall (N : num) (d : T N) nm src out p act x,
  out <> Temp -> src <> Temp -> 0 <= rC p -> sizes_ok p -> zlen x = rC p * rH p * rW p ->
  always_inside (rmode p) nm (rsh p) -> always_inside (rmode p) nm (rsw p) ->
  (rmode p = AlignCorners -> nm = NFloor /\ rOH p <> 1 /\ rOW p <> 1) ->
  exists kx ky,
    (forall i, 0 <= i < rOH p -> rounds nm (documented (rmode p) (rsh p) (rH p) (rOH p) i) (kx i) /\ 0 <= kx i < rH p) /\
    (forall j, 0 <= j < rOW p -> rounds nm (documented (rmode p) (rsw p) (rW p) (rOW p) j) (ky j) /\ 0 <= ky j < rW p) /\
    (let y := tab3 (rC p) (rOH p) (rOW p) (fun f i j => at3 d (rH p) (rW p) x f (kx i) (ky j)) in
     let n := rC p * rOH p * rOW p in
     layer_ok (float_nearest_c N nm src out p act) [(src, x)] out n n (map act y) /\
     ((scale_of (rH p) (rOH p) * IZR (rH p) = IZR (rOH p))%R -> (scale_of (rW p) (rOW p) * IZR (rW p) = IZR (rOW p))%R ->
      float_nearest_py N nm p x = Some y)).
Proof.
  intros N d nm src out p act x Ho Hs HC HS Hx A1 A2 HA.
  destruct (C31_nearest_partial N d nm src out p act x Ho Hs (sizes_wf p HC HS) Hx A1 A2 HA) as (kx & ky & K1 & K2 & K3 & K4).
  exists kx, ky. split; [exact K1|]. split; [exact K2|]. destruct HS as (H1 & H2 & H3 & H4 & H5 & H6 & H7 & H8). split.
  - intros m M1 M2 M3. destruct (K4 m M1 M2 M3) as (m' & C & D). exists m'. split; [|exact D]. rewrite <- C.
    unfold float_nearest_c, nearest_c, via_temp. f_equal.
    apply for_ext. intros f s Hf. apply for_ext. intros i s1 Hi. apply for_ext. intros j s2 Hj. unfold cx, cy.
    destruct (axis_same_c (rmode p) nm (rsh p) (rH p) (rOH p) i) as (u & E1 & E2); auto; [intros E; destruct (HA E) as (? & ? & ?); auto|].
    destruct (axis_same_c (rmode p) nm (rsw p) (rW p) (rOW p) j) as (v & E3 & E4); auto; [intros E; destruct (HA E) as (? & ? & ?); auto|].
    rewrite E1, E2, E3, E4. reflexivity.
  - intros S1 S2. rewrite <- K3. unfold float_nearest_py, nearest_py. f_equal. apply tab3_ext; try lia. intros f i j Hf Hi Hj. unfold cx, cy.
    destruct (axis_same_py (rmode p) nm (rsh p) (rH p) (rOH p) i) as (u & E1 & E2); auto; [intros E; destruct (HA E) as (? & ? & ?); auto|].
    destruct (axis_same_py (rmode p) nm (rsw p) (rW p) (rOW p) j) as (v & E3 & E4); auto; [intros E; destruct (HA E) as (? & ? & ?); auto|].
    rewrite E1, E2, E3, E4. reflexivity.
Qed.
Print Assumptions C81_layer_partial.

(** Non-vacuity: the layer of C31's example (2x3 -> 4x4, scales 2 and 4/3), and a single
    column enlarged from 18 to 42 pixels, where the position of pixel 35 is 15 exactly. *)
Example C81_example :
  let p := mkR 1 2 3 4 4 2 (4 # 3) HalfPixel in
  sizes_ok p /\ always_inside (rmode p) RoundPreferFloor (rsh p) /\ always_inside (rmode p) RoundPreferFloor (rsw p) /\
  between (42 # 18) 18 42 /\ (documented Asymmetric (42 # 18) 18 42 35 == 15)%Q /\
  pixel_c NFloor Asymmetric (scale_of 18 42) 18 42 35 = Some 15.
Proof.
  cbv zeta. split; [repeat split; cbn; lia|]. split; [vm_compute; reflexivity|]. split; [vm_compute; reflexivity|]. split; [vm_compute; reflexivity|].
  split; [vm_compute; reflexivity|].
  apply (C81_c_pixel_partial Asymmetric NFloor (42 # 18)); try lia; [vm_compute; reflexivity|discriminate|].
  split; vm_compute; congruence.
Qed.
Print Assumptions C81_example.

Open Scope R_scope.
Lemma scale_18_42 : scale_of 18 42 = IZR 5254199565265579 * / 2251799813685248.
Proof.
  unfold scale_of, double. change (/ 2251799813685248) with (bpow radix2 (2 - 53)). apply nearest_eval; [lia|lia| |].
  - change (bpow radix2 (2 - 1)) with 2. change (bpow radix2 2) with 4. rewrite Rabs_pos_eq; Lra.lra.
  - change (bpow radix2 (- (2 - 53))) with 2251799813685248. apply Rabs_def1; Lra.lra.
Qed.
Close Scope R_scope.
(** In full the property is false of Python: in double precision the position is
    14.999999999999998, and Python takes pixel 14 where the documentation and
    the generated code take pixel 15. *)
Theorem C81_python_refuted :
  rounds NFloor (documented Asymmetric (42 # 18) 18 42 35) 15 /\
  pixel_c NFloor Asymmetric (scale_of 18 42) 18 42 35 = Some 15 /\
  pixel_py NFloor Asymmetric (scale_of 18 42) 18 42 35 = Some 14.
Proof.
  assert (R : rounds NFloor (documented Asymmetric (42 # 18) 18 42 35) 15) by (split; vm_compute; congruence).
  split; [exact R|]. split.
  - apply (C81_c_pixel_partial Asymmetric NFloor (42 # 18)); try lia; [vm_compute; reflexivity|discriminate|exact R].
  - unfold pixel_py. cbn [position_py bind pixel]. f_equal. rewrite scale_18_42.
    replace (double (35 / (5254199565265579 * / 2251799813685248)))%R with (IZR 8444249301319679 * / 562949953421312)%R.
    + apply Zfloor_imp. rewrite plus_IZR. Lra.lra.
    + symmetry. unfold double. change (/ 562949953421312)%R with (bpow radix2 (4 - 53)). apply nearest_eval; [lia|lia| |].
      * change (bpow radix2 (4 - 1)) with 8%R. change (bpow radix2 4) with 16%R. rewrite Rabs_pos_eq; Lra.lra.
      * change (bpow radix2 (- (4 - 53))) with 562949953421312%R. apply Rabs_def1; Lra.lra.
Qed.
Print Assumptions C81_python_refuted.

(** And of the generated code for large axes: a layer of 16777218 = 2^24 + 2 pixels that
    changes nothing reads pixel 2^24 for its last position, 2^24 + 1 is not a [float]. *)
Theorem C81_large_refuted : let n := 16777218 in
  between 1 n n /\ rounds NFloor (documented Asymmetric 1 n n (n - 1)) (n - 1) /\
  pixel_c NFloor Asymmetric (scale_of n n) n n (n - 1) = Some (n - 2).
Proof.
  cbv zeta. split; [vm_compute; reflexivity|]. split; [split; vm_compute; congruence|].
  unfold pixel_c. cbn [position_c bind pixel]. f_equal.
  assert (S : scale_of 16777218 16777218 = 1%R).
  { unfold scale_of. replace (16777218 / 16777218)%R with 1%R by (field; lia). apply double_int. vm_compute. reflexivity. }
  rewrite S. replace (IZR (16777218 - 1) / 1)%R with (IZR 16777217) by (change (16777218 - 1) with 16777217; field).
  rewrite double_int by (vm_compute; reflexivity).
  assert (F : float (IZR 16777217) = IZR 16777216).
  { unfold float, FloatFormats.nearest, round, scaled_mantissa, cexp. assert (M : mag radix2 (IZR 16777217) = 25 :> Z).
    { apply mag_unique. rewrite Rabs_pos_eq by Lra.lra. change (bpow radix2 (25 - 1)) with 16777216%R. change (bpow radix2 25) with 33554432%R. Lra.lra. }
    rewrite M. change (FLT_exp (-149) 24 25) with 1. change (bpow radix2 (- (1))) with (/ 2)%R.
    assert (Z1 : ZnearestE (IZR 16777217 * / 2) = 8388608).
    { unfold ZnearestE, Znearest. assert (Fl : Zfloor (IZR 16777217 * / 2) = 8388608) by (apply Zfloor_imp; rewrite plus_IZR; Lra.lra).
      rewrite Fl. destruct (Rcompare_spec (IZR 16777217 * / 2 - IZR 8388608) (/ 2)); [reflexivity|reflexivity|Lra.lra]. }
    rewrite Z1. unfold F2R. cbn [Fnum Fexp]. change (bpow radix2 1) with 2%R. Lra.lra. }
  rewrite F. apply (IZR_floor 16777216).
Qed.
Print Assumptions C81_large_refuted.
