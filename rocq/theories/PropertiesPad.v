(** * Property C22: Pad layers implement numpy's four padding modes.
    numpy.pad with a mode reads, for output coordinate k along an axis, the
    input coordinate given by an extension of 0..n-1 to all integers, applied
    to k minus the padding before the data: [clamp] (edge), modulo (wrap), a
    mirrored extension (reflect); in constant mode coordinates outside 0..n-1
    give the constant.  The Python layers (padding/*/*Pad.py,
    forward_path_layer) are numpy.pad followed by the activation. *)
From Coq Require Import ZArith List Lia Bool.
Import ListNotations.
Open Scope Z_scope.
From Verif Require Import CMem Tensor Num NumInst Activation Pad PropertiesMovement.

Definition np_pad {V} (d : V) (eC eH eW : Z -> Z) (C H W : Z) (P : pads) (x : list V) : list V :=
  tab3 (C + pd_front P + pd_back P) (H + pd_top P + pd_bottom P) (W + pd_left P + pd_right P) (fun f i j =>
    at3 d H W x (eC (f - pd_front P)) (eH (i - pd_top P)) (eW (j - pd_left P))).
Definition np_pad_constant {V} (d value : V) (C H W : Z) (P : pads) (x : list V) : list V :=
  tab3 (C + pd_front P + pd_back P) (H + pd_top P + pd_bottom P) (W + pd_left P + pd_right P) (fun f i j =>
    let c := f - pd_front P in let h := i - pd_top P in let w := j - pd_left P in
    if (0 <=? c) && (c <? C) && (0 <=? h) && (h <? H) && (0 <=? w) && (w <? W) then at3 d H W x c h w else value).
Definition pad_size (C H W : Z) (P : pads) : Z :=
  (C + pd_front P + pd_back P) * (H + pd_top P + pd_bottom P) * (W + pd_left P + pd_right P).

Theorem C22_constant_pad : forall (V : Type) (d : V) src out C H W P value act x,
  out <> Temp -> src <> Temp -> pads_ok C H W P -> zlen x = C * H * W ->
  layer_ok (constant_pad_c src out C H W P value act) [(src, x)] out (pad_size C H W P) (pad_size C H W P)
    (map act (np_pad_constant d value C H W P x)).
Proof.
  intros V d src out C H W P value act x Ho Hs HP Hx. unfold np_pad_constant. rewrite map_tab3.
  exact (constant_pad_ok d src out C H W P value act x Ho Hs HP Hx).
Qed.
Print Assumptions C22_constant_pad.

(** The three other modes: the generated code applies the activation twice, so
    the activation has to be idempotent (the identity or ReLU are). *)
Definition idempotent {V} (act : V -> V) : Prop := forall v, act (act v) = act v.

Lemma pad_idem {V} (d : V) index eC eH eW src out C H W P act x :
  idempotent act -> pads_ok C H W P ->
  layer_ok (nonconstant_pad_c index src out C H W P act) [(src, x)] out
      (pad_OC C P * pad_OH H P * pad_OW W P) (pad_OC C P * pad_OH H P * pad_OW W P)
      (tab3 (pad_OC C P) (pad_OH H P) (pad_OW W P) (fun f i j => act (act
         (at3 d H W x (eC (f - pd_front P)) (eH (i - pd_top P)) (eW (j - pd_left P)))))) ->
  layer_ok (nonconstant_pad_c index src out C H W P act) [(src, x)] out (pad_size C H W P) (pad_size C H W P)
    (map act (np_pad d eC eH eW C H W P x)).
Proof.
  intros I (HC & HH & HW & P1 & P2 & P3 & P4 & P5 & P6) G. unfold np_pad. rewrite map_tab3.
  erewrite tab3_ext; [exact G|unfold pad_OC, pad_OH, pad_OW; lia..|].
  intros f i j _ _ _. symmetry. apply I.
Qed.

Theorem C22_edge_pad : forall (V : Type) (d : V) src out C H W P act x,
  out <> Temp -> src <> Temp -> pads_ok C H W P -> idempotent act -> zlen x = C * H * W ->
  layer_ok (edge_pad_c src out C H W P act) [(src, x)] out (pad_size C H W P) (pad_size C H W P)
    (map act (np_pad d (clamp C) (clamp H) (clamp W) C H W P x)).
Proof.
  intros V d src out C H W P act x Ho Hs HP I Hx. apply pad_idem; auto.
  apply nonconstant_pad_ok; auto; destruct HP as (HC & HH & HW & _); intros; apply edge_index_ok; assumption.
Qed.
Print Assumptions C22_edge_pad.

Theorem C22_reflect_pad : forall (V : Type) (d : V) src out C H W P act x eC eH eW,
  out <> Temp -> src <> Temp -> pads_ok C H W P -> idempotent act -> zlen x = C * H * W ->
  2 <= C -> 2 <= H -> 2 <= W -> mirrored C eC -> mirrored H eH -> mirrored W eW ->
  layer_ok (reflect_pad_c src out C H W P act) [(src, x)] out (pad_size C H W P) (pad_size C H W P)
    (map act (np_pad d eC eH eW C H W P x)).
Proof.
  intros V d src out C H W P act x eC eH eW Ho Hs HP I Hx HC HH HW MC MH MW. apply pad_idem; auto.
  apply nonconstant_pad_ok; auto; intros; apply reflect_index_ok; assumption.
Qed.
Print Assumptions C22_reflect_pad.

(** Mirrored extensions exist. *)
Theorem C22_mirrored_exists : forall n, 2 <= n -> exists e, mirrored n e.
Proof. intros n Hn. exists (mirror n). apply mirror_mirrored. exact Hn. Qed.
Print Assumptions C22_mirrored_exists.

Theorem C22_wrap_pad_partial : forall (V : Type) (d : V) src out C H W P act x,
  out <> Temp -> src <> Temp -> pads_ok C H W P -> idempotent act -> zlen x = C * H * W ->
  pd_front P < C -> pd_top P < H -> pd_left P < W ->
  layer_ok (wrap_pad_c src out C H W P act) [(src, x)] out (pad_size C H W P) (pad_size C H W P)
    (map act (np_pad d (fun k => k mod C) (fun k => k mod H) (fun k => k mod W) C H W P x)).
Proof.
  intros V d src out C H W P act x Ho Hs HP I Hx F1 F2 F3. apply pad_idem; auto.
  pose proof HP as (HC & HH & HW & P1 & P2 & P3 & _).
  apply (nonconstant_pad_ok d wrap_index (fun k => k mod C) (fun k => k mod H) (fun k => k mod W)); auto; intros; apply wrap_index_ok; lia.
Qed.
Print Assumptions C22_wrap_pad_partial.

(** Non-vacuity: a 2x2x3 tensor. *)
Definition pad_mem (x : list Z) (n : nat) : mem Z := mem_of [(Out 0, x); (Out 1, repeat 0 n); (Temp, repeat 0 n)].
Example C22_example :
  let P := mkPads 0 1 1 0 1 2 in
  pads_ok 2 2 3 P /\ idempotent (Z.max 0) /\ pad_size 2 2 3 P = 48 /\
  result_of (constant_pad_c (Out 0) (Out 1) 2 2 3 P 7 (Z.max 0) (pad_mem (ramp 12) 48)) (Out 1) 24
   = Some [7; 7; 7; 7; 7; 7; 7; 0; 1; 2; 7; 7; 7; 3; 4; 5; 7; 7; 7; 7; 7; 7; 7; 7] /\
  result_of (edge_pad_c (Out 0) (Out 1) 2 2 3 P (Z.max 0) (pad_mem (ramp 12) 48)) (Out 1) 24
   = Some [0; 0; 1; 2; 2; 2; 0; 0; 1; 2; 2; 2; 3; 3; 4; 5; 5; 5; 3; 3; 4; 5; 5; 5] /\
  result_of (reflect_pad_c (Out 0) (Out 1) 2 2 3 P (Z.max 0) (pad_mem (ramp 12) 48)) (Out 1) 24
   = Some [4; 3; 4; 5; 4; 3; 1; 0; 1; 2; 1; 0; 4; 3; 4; 5; 4; 3; 1; 0; 1; 2; 1; 0] /\
  result_of (wrap_pad_c (Out 0) (Out 1) 2 2 3 P (Z.max 0) (pad_mem (ramp 12) 48)) (Out 1) 24
   = Some [5; 3; 4; 5; 3; 4; 2; 0; 1; 2; 0; 1; 5; 3; 4; 5; 3; 4; 2; 0; 1; 2; 0; 1].
Proof.
  cbv zeta. split; [unfold pads_ok; cbn; lia|]. split; [intros v; lia|]. repeat split; vm_compute; reflexivity.
Qed.

(** 1. A non-idempotent activation (LeakyReLU, sigmoid, tanh, ...) is applied twice. *)
Theorem C22_activation_applied_twice_refuted : exists (P : pads) (x : list Z) (leaky : Z -> Z),
  pads_ok 1 1 2 P /\ zlen x = 1 * 1 * 2 /\ (forall v, leaky v = if v <? 0 then 3 * v else v) /\
  result_of (edge_pad_c (Out 0) (Out 1) 1 1 2 P leaky (pad_mem x 4)) (Out 1) 4 = Some [-9; -9; 5; 5] /\
  map leaky (np_pad 0 (clamp 1) (clamp 1) (clamp 2) 1 1 2 P x) = [-3; -3; 5; 5].
Proof.
  exists (mkPads 0 0 1 0 0 1), [-1; 5], (fun v => if v <? 0 then 3 * v else v).
  split; [unfold pads_ok; cbn; lia|]. repeat split.
Qed.
Print Assumptions C22_activation_applied_twice_refuted.

(** 2. Wrap: when the padding before the data is as long as the data, the
       generated code reads outside its input ([None]). *)
Theorem C22_wrap_out_of_bounds_refuted : exists (P : pads) (x : list Z),
  pads_ok 1 1 2 P /\ zlen x = 1 * 1 * 2 /\
  wrap_pad_c (Out 0) (Out 1) 1 1 2 P (fun v => v) (pad_mem x 4) = None /\
  np_pad 0 (fun k => k mod 1) (fun k => k mod 1) (fun k => k mod 2) 1 1 2 P x = [4; 5; 4; 5].
Proof.
  exists (mkPads 0 0 2 0 0 0), [4; 5]. split; [unfold pads_ok; cbn; lia|]. repeat split.
Qed.
Print Assumptions C22_wrap_out_of_bounds_refuted.

(** 3. Reflect: an image with a single channel (or row, or column) is divided
       by zero, even if that axis is not padded. *)
Theorem C22_reflect_single_channel_refuted : forall (V : Type) src out H W P act (m : mem V),
  0 < pad_OH H P -> 0 < pad_OW W P -> 0 < pad_OC 1 P ->
  reflect_pad_c src out 1 H W P act m = None.
Proof.
  intros V src out H W P act m HH HW HC. unfold reflect_pad_c, nonconstant_pad_c, via_temp.
  assert (G : forall S n (body : Z -> S -> option S) s, 0 < n -> (forall s, body 0 s = None) -> for_ n body s = None).
  { intros S n body s Hn B. replace n with (1 + (n - 1)) by lia. rewrite for_split by lia.
    change 1 with (0 + 1). rewrite for_succ by lia. rewrite for_0 by lia. cbn [bind]. rewrite B. reflexivity. }
  rewrite G; [reflexivity|exact HC|]. intros m1. apply G; [exact HH|]. intros m2. apply G; [exact HW|]. intros m3. reflexivity.
Qed.
Print Assumptions C22_reflect_single_channel_refuted.
