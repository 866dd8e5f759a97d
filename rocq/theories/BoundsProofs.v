(** * No access outside an array (C09). *)
From Coq Require Import ZArith List Lia Bool QArith Qround.
Import ListNotations.
From Verif Require Import CMem Tensor Num Activation Movement MovementProofs Linear Conv IndirectProofs Pooling PoolingProofs
  Pad Reduce ReduceProofs Resize ResizeProofs Graph GraphSpec GraphProofs Net NetProofs.
From Verif Require Broadcast BroadcastProofs.
From Verif Require Import PropertiesMovement PropertiesPooling PropertiesPad PropertiesResize PropertiesGraph
  LayerKinds LayerKindsProofs ModelProofs Bounds BoundsSpec.
Open Scope Z_scope.

(** The code runs to its end from [m] and array lengths do not change. *)
Definition keeps {V} (code : mem V -> option (mem V)) (m : mem V) : Prop :=
  exists m', code m = Some m' /\ forall b, zlen (m' b) = zlen (m b).

Lemma ring_U : ring_laws U.
Proof. constructor; intros; try reflexivity; repeat match goal with x : T U |- _ => destruct x end; reflexivity. Qed.
Lemma tt_eq (a b : T U) : a = b.
Proof. destruct a, b. reflexivity. Qed.

Lemma zlen_firstn {A} n (l : list A) : 0 <= n <= zlen l -> zlen (firstn (Z.to_nat n) l) = n.
Proof. intros H. unfold zlen in *. rewrite firstn_length. lia. Qed.
Lemma holds_firstn {V} (m : mem V) b n : holds m b (firstn (Z.to_nat n) (m b)).
Proof. exists (skipn (Z.to_nat n) (m b)). symmetry. apply firstn_skipn. Qed.

Section Layers.
  Notation gcode := (gen_code U tt (fun _ => tt)).

  Lemma accepted_keeps last l srcs k ins (m : mem (T U)) :
    accepts U l ins -> Forall2 (fun b n => 0 <= n <= zlen (m b)) srcs ins -> Forall (fun b => b <> Temp) srcs ->
    placed U (lkind U l) srcs (Out k) -> Forall (fun n => n <= zlen (m Temp)) ins ->
    out_size U (lkind U l) <= zlen (m Temp) -> out_size U (lkind U l) <= zlen (m (Out k)) ->
    (forall p, md_patches U (lkind U l) = Some p -> p <= zlen (m (Out k))) ->
    keeps (gcode last l srcs (Out k)) m.
  Proof.
    intros A HS HT HP HI H1 H2 H3.
    set (xs := map (fun p => firstn (Z.to_nat (snd p)) (m (fst p))) (combine srcs ins)).
    assert (EX : map zlen xs = ins).
    { unfold xs. clear -HS. induction HS as [|b n bs ns H HS IH]; [reflexivity|]. cbn [combine map fst snd]. f_equal; [apply zlen_firstn; exact H|exact IH]. }
    assert (LX : length srcs = length xs).
    { apply (f_equal (@length Z)) in EX. rewrite map_length in EX. rewrite EX. clear -HS. induction HS; cbn; auto. }
    destruct (layer_code_ok U tt (fun _ => tt) last l srcs k xs (zlen (m Temp)) (zlen (m (Out k)))) as (_ & OK); auto.
    - rewrite EX. exact A.
    - rewrite EX. exact HI.
    - apply zlen_nonneg.
    - destruct (OK m) as (m' & E & _ & L & _); [|lia|lia|exists m'; split; [exact E|exact L]].
      unfold xs. clear. revert ins. induction srcs as [|b bs IH]; intros ins; [constructor|]. destruct ins as [|n ns]; [constructor|].
      cbn. constructor; [apply holds_firstn|]. apply IH.
  Qed.

  Lemma ok_keeps (code : mem (T U) -> option (mem (T U))) src n out t o (m : mem (T U)) :
    (forall x, zlen x = n -> exists r, layer_ok code [(src, x)] out t o r) ->
    0 <= n <= zlen (m src) -> t <= zlen (m Temp) -> o <= zlen (m out) -> keeps code m.
  Proof.
    intros H Hn Ht Ho. destruct (H (firstn (Z.to_nat n) (m src)) (zlen_firstn n _ Hn)) as (r & OK).
    destruct (OK m) as (m' & E & _ & L & _); auto; [|exists m'; auto].
    constructor; [apply holds_firstn|constructor].
  Qed.

  Lemma act_linear : act_supported U LinearAct. Proof. left. exact I. Qed.

  Lemma cx_defined p i : (rmode p = AlignCorners -> rOH p <> 1) -> exists u, cx coord_c p i = Some u.
  Proof.
    intros H. unfold cx, coord_c. destruct (rmode p); eauto; [destruct (1 <? rOH p); eauto|].
    destruct (Z.eqb_spec (rOH p - 1) 0); [|eauto]. specialize (H eq_refl). lia.
  Qed.
  Lemma cy_defined p i : (rmode p = AlignCorners -> rOW p <> 1) -> exists u, cy coord_c p i = Some u.
  Proof.
    intros H. unfold cy, coord_c. destruct (rmode p); eauto; [destruct (1 <? rOW p); eauto|].
    destruct (Z.eqb_spec (rOW p - 1) 0); [|eauto]. specialize (H eq_refl). lia.
  Qed.
  Lemma rdU (m : mem (T U)) b x k : holds m b x -> 0 <= k < zlen x -> rd m b k = Some tt.
  Proof. intros H Hk. pose proof (holds_rd_nthZ (tt : T U) m b x k H Hk) as E. etransitivity; [exact E|]. f_equal; apply tt_eq. Qed.

  Lemma resize_keeps (cell : Z -> Z -> Z -> mem (T U) -> option (T U)) src out p act (m : mem (T U)) :
    out <> Temp -> src <> Temp -> 0 <= rC p -> 0 <= rOH p -> 0 <= rOW p -> 0 <= rC p * rH p * rW p <= zlen (m src) ->
    rC p * rOH p * rOW p <= zlen (m Temp) -> rC p * rOH p * rOW p <= zlen (m out) ->
    (forall m x f i j, holds m src x -> zlen x = rC p * rH p * rW p ->
       0 <= f < rC p -> 0 <= i < rOH p -> 0 <= j < rOW p -> cell f i j m = Some tt) ->
    keeps (resize_loops U cell out p act) m.
  Proof.
    intros Ho Hs H1 H2 H3 Hm Ht Hout HC.
    apply (ok_keeps _ src (rC p * rH p * rW p) out (rC p * rOH p * rOW p) (rC p * rOH p * rOW p)); auto.
    intros x Hx. eexists. apply (resize_loops_ok U cell src out p act x (fun _ _ _ => tt)); auto.
    intros m1 f i j Hm1 Hf Hi Hj. eapply HC; eauto.
  Qed.
  Lemma cclamp_in n k : 1 <= n -> 0 <= cclamp n k < n.
  Proof. intros H. unfold cclamp. destruct (Z.ltb_spec k 0); [lia|]. destruct (Z.leb_spec n k); lia. Qed.

  Lemma one_row_in C W f c : 0 <= f < C -> 0 <= c < W -> 0 <= c + W * f < C * W.
  Proof. nia. Qed.

  Lemma linear_keeps src k p (m : mem (T U)) : src <> Temp ->
    0 <= rC p -> 0 <= rOH p -> 0 <= rOW p -> 1 <= rH p -> 1 <= rW p -> ~ (rH p = 1 /\ rW p = 1) ->
    (rmode p = AlignCorners -> rOH p <> 1 /\ rOW p <> 1) ->
    rC p * rH p * rW p <= zlen (m src) -> rC p * rOH p * rOW p <= zlen (m Temp) -> rC p * rOH p * rOW p <= zlen (m (Out k)) ->
    match linear_c U (fun _ => tt) src (Out k) p (c_act U LinearAct) with Some c => keeps c m | None => False end.
  Proof.
    intros Hs H1 H2 H3 H4 H5 H6 H7 Hm Ht Ho. unfold linear_c, by_shape.
    assert (H71 : rmode p = AlignCorners -> rOH p <> 1) by (intros E; apply H7 in E; tauto).
    assert (H72 : rmode p = AlignCorners -> rOW p <> 1) by (intros E; apply H7 in E; tauto).
    assert (HN : 0 <= rC p * rH p * rW p) by nia.
    destruct (Z.eqb_spec (rH p) 1) as [E1|E1]; destruct (Z.ltb_spec 1 (rW p)) as [E2|E2]; cbn [andb bind].
    - apply (resize_keeps _ src); auto; try discriminate. intros m1 x f i j Hx Lx Hf Hi Hj. unfold linear_cell_1d.
      destruct (cy_defined p j H72) as [u Eu]. rewrite Eu.
      rewrite (rdU m1 src x) by (auto; rewrite Lx, E1, Z.mul_1_r; apply one_row_in; lia). cbn [bind].
      rewrite (rdU m1 src x) by (auto; rewrite Lx, E1, Z.mul_1_r; apply one_row_in; lia). cbn [bind]. f_equal.
    - exfalso. lia.
    - destruct (Z.ltb_spec 1 (rH p)) as [E3|E3]; [|exfalso; lia]. destruct (Z.eqb_spec (rW p) 1); [exfalso; lia|]. cbn [andb bind].
      apply (resize_keeps _ src); auto; try discriminate. intros m1 x f i j Hx Lx Hf Hi Hj. unfold linear_cell_2d.
      destruct (cx_defined p i H71) as [u Eu]. rewrite Eu. destruct (cy_defined p j H72) as [v Ev]. rewrite Ev. cbn [bind].
      pose proof (qclip_range (rH p) u ltac:(lia)) as Rx. pose proof (qclip_range (rW p) v ltac:(lia)) as Ry.
      set (u' := qclip (rH p) u) in *. set (v' := qclip (rW p) v) in *.
      assert (RD : forall a b, 0 <= a < rH p -> 0 <= b < rW p -> rd m1 src (b + rW p * (a + rH p * f)) = Some tt).
      { intros a b Ha Hb. apply (rdU m1 src x); [exact Hx|]. rewrite Lx. apply (idx3_range (rC p) (rH p) (rW p) f a b); assumption. }
      rewrite RD by assumption. cbn [bind].
      destruct (Z.leb_spec (rH p) (Qfloor u' + 1)); destruct (Z.leb_spec (rW p) (Qfloor v' + 1)); cbn [orb bind];
        rewrite ?RD by lia; cbn [bind]; rewrite ?RD by lia; cbn [bind]; rewrite ?RD by lia; cbn [bind]; f_equal.
    - destruct (Z.ltb_spec 1 (rH p)) as [E3|E3]; [|exfalso; lia]. destruct (Z.eqb_spec (rW p) 1) as [E4|]; [|exfalso; lia]. cbn [andb bind].
      apply (resize_keeps _ src); auto; try discriminate. intros m1 x f i j Hx Lx Hf Hi Hj. unfold linear_cell_1d.
      destruct (cx_defined p i H71) as [u Eu]. rewrite Eu.
      rewrite (rdU m1 src x) by (auto; rewrite Lx, E4, Z.mul_1_r; apply one_row_in; lia). cbn [bind].
      rewrite (rdU m1 src x) by (auto; rewrite Lx, E4, Z.mul_1_r; apply one_row_in; lia). cbn [bind]. f_equal.
  Qed.

  Lemma cubic_keeps a src k p (m : mem (T U)) : src <> Temp ->
    0 <= rC p -> 0 <= rOH p -> 0 <= rOW p -> 1 <= rH p -> 1 <= rW p -> ~ (rH p = 1 /\ rW p = 1) ->
    (rmode p = AlignCorners -> rOH p <> 1 /\ rOW p <> 1) ->
    rC p * rH p * rW p <= zlen (m src) -> rC p * rOH p * rOW p <= zlen (m Temp) -> rC p * rOH p * rOW p <= zlen (m (Out k)) ->
    match cubic_c U (fun _ => tt) a src (Out k) p (c_act U LinearAct) with Some c => keeps c m | None => False end.
  Proof.
    intros Hs H1 H2 H3 H4 H5 H6 H7 Hm Ht Ho. unfold cubic_c, by_shape.
    assert (H71 : rmode p = AlignCorners -> rOH p <> 1) by (intros E; apply H7 in E; tauto).
    assert (H72 : rmode p = AlignCorners -> rOW p <> 1) by (intros E; apply H7 in E; tauto).
    assert (HN : 0 <= rC p * rH p * rW p) by nia.
    destruct (Z.eqb_spec (rH p) 1) as [E1|E1]; destruct (Z.ltb_spec 1 (rW p)) as [E2|E2]; cbn [andb bind].
    - apply (resize_keeps _ src); auto; try discriminate. intros m1 x f i j Hx Lx Hf Hi Hj. unfold cubic_cell_1d.
      destruct (cy_defined p j H72) as [u Eu]. rewrite Eu. cbn [bind].
      assert (RD : forall c, rd m1 src (cclamp (rW p) c + rW p * f) = Some tt).
      { intros c. apply (rdU m1 src x); [exact Hx|]. rewrite Lx, E1, Z.mul_1_r. apply one_row_in; [lia|]. apply cclamp_in. lia. }
      rewrite !RD. cbn [bind]. f_equal.
    - exfalso. lia.
    - destruct (Z.ltb_spec 1 (rH p)) as [E3|E3]; [|exfalso; lia]. destruct (Z.eqb_spec (rW p) 1); [exfalso; lia|]. cbn [andb bind].
      apply (resize_keeps _ src); auto; try discriminate. intros m1 x f i j Hx Lx Hf Hi Hj. unfold cubic_cell_2d.
      destruct (cx_defined p i H71) as [u Eu]. rewrite Eu. destruct (cy_defined p j H72) as [v Ev]. rewrite Ev. cbn [bind].
      assert (RD : forall x0 c s, cubic_column_c U a src p f x0 c s m1 = Some tt).
      { intros x0 c s. unfold cubic_column_c.
        assert (R1 : forall e, rd m1 src (cclamp (rW p) c + rW p * (cclamp (rH p) e + rH p * f)) = Some tt).
        { intros e. apply (rdU m1 src x); [exact Hx|]. rewrite Lx.
          apply (idx3_range (rC p) (rH p) (rW p) f (cclamp (rH p) e) (cclamp (rW p) c)); [assumption|apply cclamp_in; lia|apply cclamp_in; lia]. }
        rewrite !R1. cbn [bind]. f_equal. }
      rewrite !RD. cbn [bind]. f_equal.
    - destruct (Z.ltb_spec 1 (rH p)) as [E3|E3]; [|exfalso; lia]. destruct (Z.eqb_spec (rW p) 1) as [E4|]; [|exfalso; lia]. cbn [andb bind].
      apply (resize_keeps _ src); auto; try discriminate. intros m1 x f i j Hx Lx Hf Hi Hj. unfold cubic_cell_1d.
      destruct (cx_defined p i H71) as [u Eu]. rewrite Eu. cbn [bind].
      assert (RD : forall c, rd m1 src (cclamp (rH p) c + rH p * f) = Some tt).
      { intros c. apply (rdU m1 src x); [exact Hx|]. rewrite Lx, E4, Z.mul_1_r. apply one_row_in; [lia|]. apply cclamp_in. lia. }
      rewrite !RD. cbn [bind]. f_equal.
  Qed.

  (** Reduce with no axes and noop_with_empty_axes: works in its own array. *)
  Lemma reduce_none_keeps out n act (m : mem (T U)) : n <= zlen (m out) -> keeps (reduce_none U out n act) m.
  Proof.
    intros Hn. unfold keeps, reduce_none. destruct (Z.lt_ge_cases n 0) as [Neg|Pos]; [exists m; rewrite for_0 by lia; split; reflexivity|].
    destruct (for_inv (fun _ m' => forall b, zlen (m' b) = zlen (m b)) n (fun q m0 => v <- rd m0 out q ;; wr m0 out q (act v)) m) as (m' & E & H).
    - exact Pos.
    - reflexivity.
    - intros i m1 Hi H1. destruct (rdl_some (m1 out) i) as (v & Ev); [rewrite H1; lia|]. unfold rd. rewrite Ev. cbn [bind].
      destruct (wr_spec m1 out i (act v)) as (m2 & E2 & O2 & _ & _ & O3); [rewrite H1; lia|].
      exists m2. split; [exact E2|]. intros b. rewrite <- H1. apply (only_zlen m1 m2 out b). split; assumption.
    - exists m'. split; assumption.
  Qed.

  Definition undilated (c : conv_params) : conv_params :=
    mkConv (ic c) (ih c) (iw c) (nf c) (oh c) (ow c) (kh c) (kw c) (strides c) 1 (pt c) (pl c) (pb c) (pr c).

  Lemma sized_keeps last kd srcs k ins (m : mem (T U)) :
    well_sized U kd ins -> Forall2 (fun b n => 0 <= n <= zlen (m b)) srcs ins -> Forall (fun b => b <> Temp) srcs ->
    Forall (fun n => n <= zlen (m (Out k))) ins -> Forall (fun n => n <= zlen (m Temp)) ins ->
    out_size U kd <= zlen (m Temp) -> out_size U kd <= zlen (m (Out k)) ->
    (forall p, md_patches U kd = Some p -> p <= zlen (m (Out k))) ->
    keeps (gcode last (mkLayer U kd LinearAct) srcs (Out k)) m.
  Proof.
    intros WS HS HT HO HI H1 H2 H3.
    assert (DIRECT : (match kd with KFlatten _ _ _ _ _ | KConv _ StdGemmNN _ _ _ => False | _ => True end) ->
      accepts U (mkLayer U kd LinearAct) ins -> keeps (gcode last (mkLayer U kd LinearAct) srcs (Out k)) m).
    { intros P A. apply (accepted_keeps last (mkLayer U kd LinearAct) srcs k ins m A HS HT); auto.
      cbn [lkind]. destruct kd; try exact I; [destruct P|destruct impl; try exact I; destruct P]. }
    assert (ONE : forall n, ins = [n] -> exists s0, srcs = [s0] /\ s0 <> Temp /\ 0 <= n <= zlen (m s0) /\ n <= zlen (m (Out k))).
    { intros n ->. inversion HS as [|s0 n0 ss ns A B]; subst. inversion B; subst. inversion HT; subst. inversion HO; subst. eauto. }
    pose proof act_linear as AL.
    destruct kd; cbn [well_sized] in WS; try (destruct WS; fail);
      try (apply DIRECT; [exact I|]; split; [exact AL|]; exact WS).
    - (* Gemm *)
      apply DIRECT; [exact I|]. split; [exact AL|]. destruct WS as (W1 & W2 & W3 & W4 & W5 & W6). cbn. repeat (split; [assumption|]). right. exact ring_U.
    - (* Flatten *)
      destruct WS as (E & W0). destruct (ONE _ E) as (s0 & -> & N0 & R0 & R1).
      change (keeps (gcode last (mkLayer U (KFlatten U channels_last C H W) LinearAct) [Out k] (Out k)) m).
      apply (accepted_keeps last (mkLayer U (KFlatten U channels_last C H W) LinearAct) [Out k] k ins m); auto.
      + split; [exact AL|]. split; [exact E|]. exact W0.
      + rewrite E. constructor; [lia|constructor].
      + constructor; [discriminate|constructor].
      + reflexivity.
    - (* Conv *)
      destruct WS as (E & W1 & W2 & W3 & W4 & W5 & W6 & W7 & W8 & W9 & W10 & W11).
      destruct (ONE _ E) as (s0 & -> & N0 & R0 & R1). destruct impl.
      + apply DIRECT; [exact I|]. split; [exact AL|]. cbn. split; [exact E|]. unfold conv_supported. repeat (split; [assumption|]). intros ? ?; apply tt_eq.
      + set (s1 := match s0 with Cst j => Cst j | _ => Out k end).
        change (keeps (gcode last (mkLayer U (KConv U StdGemmNN (undilated c) w b) LinearAct) [s0] (Out k)) m).
        assert (EC : gcode last (mkLayer U (KConv U StdGemmNN (undilated c) w b) LinearAct) [s0] (Out k) =
                     gcode last (mkLayer U (KConv U StdGemmNN (undilated c) w b) LinearAct) [s1] (Out k)) by (destruct s0; reflexivity).
        rewrite EC. apply (accepted_keeps last (mkLayer U (KConv U StdGemmNN (undilated c) w b) LinearAct) [s1] k ins m); auto.
        * split; [exact AL|]. cbn. split; [exact E|]. unfold conv_supported. cbn [ic ih iw nf oh ow kh kw undilated dilation].
          repeat (split; [assumption|]). split; [intros ? ?; apply tt_eq|]. split; [intros ? ?; apply tt_eq|reflexivity].
        * rewrite E. constructor; [|constructor]. subst s1. destruct s0; cbv iota; lia.
        * constructor; [|constructor]. subst s1. destruct s0; discriminate.
        * subst s1. cbn. destruct s0; cbn; [right; reflexivity|left; eexists; reflexivity|right; reflexivity..].
      + cbn [gen_code lkind lact]. cbn in H1, H2. apply indirect_nn_inside; auto; try discriminate; lia.
    - (* MaxPool *)
      destruct WS as (E & W). destruct (ONE _ E) as (s0 & -> & N0 & R0 & R1). cbn in H1, H2. cbn [gen_code lkind lact].
      apply (ok_keeps _ s0 (p_C P * p_IH P * p_IW P) (Out k) (p_C P * p_OH P * p_OW P) (p_C P * p_OH P * p_OW P)); auto.
      intros x Hx. eexists. apply max_pool_ok; auto; discriminate.
    - destruct WS as (E & W). destruct (ONE _ E) as (s0 & -> & N0 & R0 & R1). cbn in H1, H2. cbn [gen_code lkind lact].
      apply (ok_keeps _ s0 (p_C P * p_IH P * p_IW P) (Out k) (p_C P * p_OH P * p_OW P) (p_C P * p_OH P * p_OW P)); auto.
      intros x Hx. eexists. apply avg_pool_ok; auto; discriminate.
    - (* Pad *)
      apply DIRECT; [exact I|]. destruct WS as (E & W1 & W2). split; [exact AL|]. cbn. split; [exact E|]. split; [exact W1|].
      destruct mode; auto; try (split; [|exact W2]); intros ?; apply tt_eq.
    - (* Reduce *)
      destruct WS as (E & W1 & W2 & W3 & [W4|[-> ->]]).
      + apply DIRECT; [exact I|]. split; [exact AL|]. cbn. auto.
      + destruct (ONE _ E) as (s0 & -> & N0 & R0 & R1). cbn [gen_code lkind lact]. unfold reduce_c. cbn [in_axes existsb].
        apply reduce_none_keeps. exact H2.
    - apply DIRECT; [exact I|]. destruct WS as (E & W1 & W2 & W3 & W4). split; [exact AL|]. cbn. auto 6.
    - (* Linear *)
      destruct WS as (E & W1 & W2 & W3 & W4 & W5 & W6 & W7). destruct (ONE _ E) as (s0 & -> & N0 & R0 & R1). cbn in H1, H2.
      pose proof (linear_keeps s0 k p m N0) as L. cbn [gen_code lkind lact].
      destruct (linear_c U _ s0 (Out k) p _); [apply L|exfalso; apply L]; try assumption; lia.
    - destruct WS as (E & W1 & W2 & W3 & W4 & W5 & W6 & W7). destruct (ONE _ E) as (s0 & -> & N0 & R0 & R1). cbn in H1, H2.
      pose proof (cubic_keeps a s0 k p m N0) as L. cbn [gen_code lkind lact].
      destruct (cubic_c U _ a s0 (Out k) p _); [apply L|exfalso; apply L]; try assumption; lia.
  Qed.
End Layers.

Section Blank.
  Context (N : num).
  Lemma blank_sized k ins : well_sized N k ins -> well_sized U (blank_kind N k) ins.
  Proof.
    destruct k; cbn [blank_kind well_sized]; rewrite ?zlen_blank; try exact (fun H => H).
    - destruct mode; cbn; auto.
    - unfold broadcast_supported. intros (A & B & C & D). split; [exact A|]. split; [|split; [exact C|]].
      + destruct cst as [[sc w]|]; exact B.
      + intros c E. destruct cst as [[sc w]|]; [|discriminate]. injection E as <-. specialize (D _ eq_refl).
        unfold Broadcast.well_shaped in *. cbn in *. rewrite zlen_blank. exact D.
  Qed.
  Lemma sized_nonneg k ins : well_sized N k ins -> 0 <= out_size N k.
  Proof.
    intros B. destruct k; cbn [well_sized out_size] in *; try (destruct B; fail).
    - lia.
    - lia.
    - destruct B as (_ & ? & ? & ? & ?). nia.
    - destruct B as (_ & ? & ? & ? & ?). nia.
    - destruct B as (_ & ? & ? & ? & ?). nia.
    - destruct B as (_ & ? & ? & ? & HP). nia.
    - destruct B as (_ & ? & ? & ? & _). nia.
    - destruct B as (_ & ? & ? & ? & ? & _). pose proof (zlen_nonneg inds).
      destruct (axis =? 1), (axis =? 2), (axis =? 3); nia.
    - destruct B as (_ & ? & ? & ? & ? & _). nia.
    - destruct B as (_ & ? & ? & ? & ? & ? & ?). assert (0 < rc * C) by nia. assert (0 < rh * H) by nia. assert (0 < rw * W) by nia. nia.
    - destruct B as (_ & ? & ? & ?). nia.
    - destruct B as (_ & ? & ? & ? & ? & ? & ? & _). nia.
    - destruct B as (_ & ? & ? & ?). nia.
    - destruct B as (_ & ? & ? & ?). nia.
    - destruct B as (_ & (? & ? & ? & ? & ? & ? & ? & ? & ?) & _). unfold pad_size. nia.
    - destruct B as (_ & B2 & _). pose proof B2 as (P1 & P2 & (M1 & M1') & (M2 & M2') & (M3 & M3')). rewrite Forall_forall in P1.
      apply in_map_iff in M1. destruct M1 as (s1 & <- & I1). apply in_map_iff in M2. destruct M2 as (s2 & <- & I2).
      apply in_map_iff in M3. destruct M3 as (s3 & <- & I3).
      apply P1 in I1, I2, I3. destruct I1 as (? & ? & ?), I2 as (? & ? & ?), I3 as (? & ? & ?). nia.
    - destruct B as (_ & ? & ? & ? & _). unfold red_dim. destruct (_ || _), (_ || _), (_ || _); nia.
    - destruct B as (_ & ? & ? & ? & _). nia.
    - destruct B as (_ & (? & ? & ? & ? & ? & ? & ?) & _). nia.
    - destruct B as (_ & ? & ? & ? & _). nia.
    - destruct B as (_ & ? & ? & ? & _). nia.
  Qed.
  Lemma sized_channels k ins C H W : well_sized N k ins -> out_channels N k = Some (C, H, W) ->
    0 <= C /\ 0 <= H /\ 0 <= W /\ C * H * W = out_size N k.
  Proof.
    intros B E. destruct k; cbn [well_sized out_channels out_size] in *; try discriminate; try (injection E as <- <- <-); try (destruct B; fail).
    - destruct B as (_ & ? & ? & ? & ?). repeat split; auto.
    - destruct B as (_ & ? & ? & ? & ?). repeat split; auto; lia.
    - destruct B as (_ & ? & ? & ? & ?). repeat split; auto; lia.
    - destruct B as (_ & ? & ? & ? & HP).
      destruct (perm_cases _ _ _ HP) as [(->&->&->)|[(->&->&->)|[(->&->&->)|[(->&->&->)|[(->&->&->)|(->&->&->)]]]]]; cbn;
        (split; [assumption|split; [assumption|split; [assumption|lia]]]).
    - destruct B as (_ & ? & ? & ? & _). auto.
    - destruct B as (_ & ? & ? & ? & ? & _). pose proof (zlen_nonneg inds).
      destruct (axis =? 1), (axis =? 2), (axis =? 3); auto.
    - destruct B as (_ & ? & ? & ? & ? & _). auto.
    - destruct B as (_ & ? & ? & ? & ? & ? & ?). repeat split; auto; nia.
    - destruct B as (_ & ? & ? & ? & ? & ? & ? & _). auto.
    - destruct B as (_ & ? & ? & ?). auto.
    - destruct B as (_ & ? & ? & ?). auto.
    - destruct B as (_ & (? & ? & ? & ? & ? & ? & ? & ? & ?) & _). unfold pad_size. repeat split; lia.
    - destruct B as (_ & B2 & _). pose proof B2 as (P1 & P2 & (M1 & M1') & (M2 & M2') & (M3 & M3')). rewrite Forall_forall in P1.
      apply in_map_iff in M1. destruct M1 as (s1 & <- & I1). apply in_map_iff in M2. destruct M2 as (s2 & <- & I2).
      apply in_map_iff in M3. destruct M3 as (s3 & <- & I3).
      apply P1 in I1, I2, I3. destruct I1 as (? & ? & ?), I2 as (? & ? & ?), I3 as (? & ? & ?). repeat split; lia.
    - destruct B as (_ & ? & ? & ? & _). unfold red_dim. split; [|split; [|split]]; try reflexivity; destruct (_ || _); lia.
    - destruct B as (_ & ? & ? & ? & _). destruct (one_dimension C0 H0 W0); [discriminate|]. injection E as <- <- <-. repeat split; lia.
    - destruct B as (_ & (? & ? & ? & ? & ? & ? & ?) & _). auto.
    - destruct B as (_ & ? & ? & ? & _). auto.
    - destruct B as (_ & ? & ? & ? & _). auto.
  Qed.
End Blank.

(** ** Any network: if every layer's code stays inside the declared arrays, so does the inference function. *)
Section NetSafe.
  Context {V : Type} (net : network V) (s : schedule).
  Let g := net_graph net.
  Hypothesis HL : linked g.
  Hypothesis G : runnable g s.
  Hypothesis SZ : forall n, In n (order s) -> 0 <= size net n.
  Hypothesis HK : forall n srcs k m, In n (order s) -> sources net s n = Some srcs -> dget (paths s) n = Some k ->
    (k < max_path s)%nat -> declared net s m -> keeps (code net n srcs (Out k)) m.
  Hypothesis HO : forall k m, dget (paths s) (last (order s) O) = Some k -> (k < max_path s)%nat -> declared net s m ->
    keeps (output_code net (Out k)) m.

  Lemma size_path n : In n (order s) -> size net n <= path_size net s.
  Proof.
    intros H. assert (size net n <= l_size_max net s) by (apply max_list_le; apply (in_map (size net)); exact H).
    unfold path_size. destruct (existsb _ _); lia.
  Qed.
  Lemma size_temp n : In n (order s) -> size net n <= temp_size net s.
  Proof.
    intros H. assert (size net n <= l_size_max net s) by (apply max_list_le; apply (in_map (size net)); exact H).
    unfold temp_size. lia.
  Qed.
  Lemma size_cst n k : dget (csts s) n = Some k -> size net n <= cst_size net s k.
  Proof.
    intros Ec. unfold cst_size. apply max_list_le. apply in_map_iff. exists (n, k). split; [reflexivity|].
    apply filter_In. split; [apply dget_In; exact Ec|]. cbn. apply Nat.eqb_refl.
  Qed.
  Lemma patches_path n p : In n (order s) -> patches_size net n = Some p -> p <= path_size net s.
  Proof.
    intros Hn Hp. unfold path_size. replace (existsb _ (order s)) with true.
    2:{ symmetry. apply existsb_exists. exists n. split; [exact Hn|]. rewrite Hp. reflexivity. }
    unfold patches_size_max. etransitivity; [|apply Z.le_max_r]. etransitivity; [|apply Z.le_max_r].
    etransitivity; [|apply max_list_le; apply in_map; exact Hn]. rewrite Hp. lia.
  Qed.
  Lemma out_len m k : declared net s m -> (k < max_path s)%nat -> zlen (m (Out k)) = path_size net s.
  Proof. intros D H. rewrite D. cbn [array_size]. apply Nat.ltb_lt in H. rewrite H. reflexivity. Qed.

  (** A source array is large enough for the value it holds. *)
  Lemma source_len p b m : In p (order s) -> output_str s p = Some b -> declared net s m -> size net p <= zlen (m b) /\ b <> Temp.
  Proof.
    intros Hp Hb D. unfold output_str in Hb. destruct (rn_paths g s G p Hp) as (k & Ek & Lk).
    destruct (dget (csts s) p) as [j|] eqn:Ej.
    - injection Hb as <-. split; [|discriminate]. rewrite D. cbn. apply size_cst. exact Ej.
    - rewrite Ek in Hb. injection Hb as <-. split; [|discriminate]. rewrite (out_len m k D Lk). apply size_path. exact Hp.
  Qed.
  Lemma sources_len n srcs m : In n (order s) -> previous_layer g n <> [] -> sources net s n = Some srcs -> declared net s m ->
    Forall2 (fun b z => 0 <= z <= zlen (m b)) srcs (map (size net) (previous_layer g n)) /\ Forall (fun b => b <> Temp) srcs.
  Proof.
    intros Hn NE Hs D. unfold sources in Hs. fold g in Hs.
    assert (IP : forall p, In p (previous_layer g n) -> In p (order s)) by (intros p; apply (prev_in_order net s HL G n p Hn)).
    destruct (previous_layer g n) as [|p0 ps0]; [congruence|]. clear NE. revert srcs Hs.
    induction (p0 :: ps0) as [|p ps IH]; intros srcs E; cbn in E; [injection E as <-; split; constructor|].
    destruct (output_str s p) as [b|] eqn:Eb; [|discriminate]. cbn in E.
    destruct (all_some (map (output_str s) ps)) as [bs|] eqn:Es; [|discriminate]. cbn in E. injection E as <-.
    destruct (IH (fun q Hq => IP q (or_intror Hq)) bs eq_refl) as (I1 & I2).
    destruct (source_len p b m (IP p (or_introl eq_refl)) Eb D) as (S1 & S2). pose proof (SZ p (IP p (or_introl eq_refl))).
    split; [cbn; constructor; [lia|exact I1]|constructor; assumption].
  Qed.

  Lemma run_layer_keeps n m : In n (order s) -> declared net s m -> exists m', run_layer net s m n = Some m' /\ declared net s m'.
  Proof.
    intros Hn D. destruct (sources_some net s HL G n Hn) as (srcs & Es). destruct (rn_paths g s G n Hn) as (k & Ek & Lk).
    destruct (HK n srcs k m Hn Es Ek Lk D) as (m1 & E1 & L1).
    assert (D1 : declared net s m1) by (intros b; rewrite L1; apply D).
    unfold run_layer. rewrite Es. cbn [bind]. rewrite Ek. cbn [bind]. rewrite E1. cbn [bind].
    destruct (dget (csts s) n) as [j|] eqn:Ej; [|exists m1; split; [reflexivity|exact D1]].
    pose proof (SZ n Hn) as S0.
    destruct (copy_spec (Out k) (Cst j) (size net n) m1 (firstn (Z.to_nat (size net n)) (m1 (Out k)))) as (m2 & E2 & O2 & _).
    - discriminate.
    - apply holds_firstn.
    - apply zlen_firstn. rewrite (out_len m1 k D1 Lk). split; [exact S0|]. apply size_path. exact Hn.
    - rewrite D1. cbn. apply size_cst. exact Ej.
    - exists m2. split; [exact E2|]. intros b. rewrite (only_zlen m1 m2 (Cst j) b O2). apply D1.
  Qed.
  Lemma run_layers_keeps l m : incl l (order s) -> declared net s m -> exists m', run_layers net s l m = Some m' /\ declared net s m'.
  Proof.
    revert m. induction l as [|n l IH]; intros m Hl D; [exists m; split; [reflexivity|exact D]|].
    destruct (run_layer_keeps n m) as (m1 & E1 & D1); [apply Hl; left; reflexivity|exact D|].
    destruct (IH m1) as (m2 & E2 & D2); [intros p Hp; apply Hl; right; exact Hp|exact D1|].
    exists m2. cbn [run_layers]. rewrite E1. cbn [bind]. split; assumption.
  Qed.
  Lemma inference_keeps m : declared net s m -> exists m', inference net s m = Some m' /\ declared net s m'.
  Proof.
    intros D. destruct (run_layers_keeps (order s) m (incl_refl _) D) as (m1 & E1 & D1).
    assert (HI : In (last (order s) O) (order s)).
    { pose proof (rn_nonempty g s G) as NE. rewrite (app_removelast_last O (l := order s)) at 2 by exact NE.
      apply in_or_app. right. left. reflexivity. }
    destruct (rn_paths g s G _ HI) as (k & Ek & Lk). destruct (HO k m1 Ek Lk D1) as (m2 & E2 & L2).
    exists m2. unfold inference. rewrite E1. cbn [bind]. rewrite Ek. cbn [bind]. split; [exact E2|].
    intros b. rewrite L2. apply D1.
  Qed.
End NetSafe.

(** ** Models over the one-element arithmetic. *)
Section ModelSafe.
  Context (md : model U) (inp : nat) (s : schedule).
  Hypothesis LO : laid_out U md inp.
  Hypothesis RN : runnable (md_graph U md) s.
  Hypothesis HH : hd O (order s) = inp.
  Hypothesis LA : forall n, lact U (md_layer U md n) = LinearAct.
  Notation g := (md_graph U md).
  Notation net := (python_net U tt (fun _ => tt) md s).

  Lemma io n : In n (order s) <-> In n (dnn g).
  Proof. exact (in_order net s RN n). Qed.
  Lemma src_kind n : In n (dnn g) -> previous_layer g n = [] -> n = inp \/ exists w, lk U md n = KConstant U w.
  Proof.
    intros Hn Hp. destruct (Nat.eq_dec n inp) as [->|NE]; [left; reflexivity|]. right.
    destruct (is_constant g n) eqn:EC; [apply (lo_constants U md inp LO); assumption|].
    pose proof (lo_single U md inp LO) as (_ & _ & _ & H). destruct (H n Hn NE EC) as (p & Hpp & _).
    rewrite Hp in Hpp. destruct Hpp.
  Qed.
  Lemma size_ok m n : declared net s m -> In n (order s) -> 0 <= md_size U md n.
  Proof.
    intros D Hn. apply io in Hn. destruct (previous_layer g n) as [|p ps] eqn:EP.
    - destruct (src_kind n Hn EP) as [->|[w Ew]].
      + pose proof (D NnIn) as E. cbn in E. rewrite HH in E. rewrite <- E. apply zlen_nonneg.
      + unfold md_size. rewrite Ew. cbn. apply zlen_nonneg.
    - unfold md_size. eapply sized_nonneg. apply (lo_layers U md inp LO n Hn). rewrite EP. discriminate.
  Qed.
  Lemma layer_kind n : md_layer U md n = mkLayer U (lk U md n) LinearAct.
  Proof. unfold lk. specialize (LA n). destruct (md_layer U md n). cbn in *. subst. reflexivity. Qed.

  Lemma copy_keeps src dst n (m : mem (T U)) : src <> dst -> 0 <= n <= zlen (m src) -> n <= zlen (m dst) -> keeps (copy_c src dst n) m.
  Proof.
    intros Hn H1 H2. destruct (copy_spec src dst n m (firstn (Z.to_nat n) (m src))) as (m' & E & O & _); auto.
    - apply holds_firstn.
    - apply zlen_firstn. exact H1.
    - exists m'. split; [exact E|]. intros b. apply (only_zlen m m' dst b O).
  Qed.

  Lemma model_layer_keeps n srcs k m : In n (order s) -> sources net s n = Some srcs -> dget (paths s) n = Some k ->
    (k < max_path s)%nat -> declared net s m -> keeps (code net n srcs (Out k)) m.
  Proof.
    intros Hn Hs Hk Lk D. pose proof (proj1 (io n) Hn) as Hd.
    assert (SZ : forall i, In i (order s) -> 0 <= size net i) by (intros i; apply (size_ok m i D)).
    pose proof (out_len net s m k D Lk) as OL. pose proof (D Temp) as TL. cbn [array_size] in TL.
    pose proof (size_path net s n Hn) as SP. pose proof (size_temp net s n Hn) as ST. pose proof (SZ n Hn) as S0.
    cbn [python_net net_with code size] in *. rewrite layer_kind.
    destruct (previous_layer g n) as [|p0 ps0] eqn:EP.
    - unfold sources in Hs. cbn in Hs. rewrite EP in Hs. injection Hs as <-. unfold md_size in *.
      destruct (src_kind n Hd EP) as [->|[w Ew]].
      + pose proof (D NnIn : zlen (m NnIn) = md_size U md (hd O (order s))) as IL. rewrite HH in IL. unfold md_size in IL.
        destruct (lo_input U md inp LO) as [(C & H & W & EK & HC0 & HH0 & HW0)|(n0 & EK)]; rewrite EK in *; cbn [out_size gen_code lkind lact] in *.
        * destruct (md_last U md).
          -- destruct (last_to_first_spec (tt : T U) NnIn (Out k) C H W m (m NnIn)) as (m' & E1 & O1 & _); auto; try discriminate; try lia.
             { exists []. symmetry. apply app_nil_r. }
             exists m'. split; [exact E1|]. intros b. apply (only_zlen m m' (Out k) b O1).
          -- apply copy_keeps; [discriminate|lia|lia].
        * apply copy_keeps; [discriminate|lia|lia].
      + rewrite Ew in *. cbn [out_size gen_code lkind lact] in *.
        destruct (constant_c_spec (tt : T U) w (Out k) (zlen w) m) as (m' & E1 & O1 & _); auto; try lia.
        exists m'. split; [exact E1|]. intros b. apply (only_zlen m m' (Out k) b O1).
    - assert (NE : previous_layer g n <> []) by (rewrite EP; discriminate).
      pose proof (lo_layers U md inp LO n Hd NE) as WS.
      destruct (sources_len net s (lo_linked U md inp LO) RN SZ n srcs m Hn NE Hs D) as (F1 & F2).
      cbn [net_graph size] in F1.
      assert (ALL : forall v, In v (map (md_size U md) (previous_layer g n)) -> v <= zlen (m (Out k)) /\ v <= zlen (m Temp)).
      { intros v Hv. apply in_map_iff in Hv as (p & <- & Hp).
        pose proof (prev_in_order net s (lo_linked U md inp LO) RN n p Hn Hp) as Hpi.
        pose proof (size_path net s p Hpi). pose proof (size_temp net s p Hpi). change (size net p) with (md_size U md p) in *. lia. }
      apply (sized_keeps (md_last U md) (lk U md n) srcs k (map (md_size U md) (previous_layer g n)) m); auto.
      + apply Forall_forall. intros v Hv. apply ALL. exact Hv.
      + apply Forall_forall. intros v Hv. apply ALL. exact Hv.
      + unfold md_size in *. lia.
      + unfold md_size in *. lia.
      + intros p Hp. rewrite OL. apply (patches_path net s n p Hn). exact Hp.
  Qed.

  Lemma model_output_keeps k m : dget (paths s) (last (order s) O) = Some k -> (k < max_path s)%nat -> declared net s m ->
    keeps (output_code net (Out k)) m.
  Proof.
    intros Hk Lk D. pose proof (out_len net s m k D Lk) as OL. pose proof (D NnOut : zlen (m NnOut) = md_size U md (last (order s) O)) as NL.
    assert (HI : In (last (order s) O) (order s)).
    { pose proof (rn_nonempty g s RN) as NE. rewrite (app_removelast_last O (l := order s)) at 2 by exact NE.
      apply in_or_app. right. left. reflexivity. }
    pose proof (size_path net s _ HI) as SP. pose proof (size_ok m _ D HI) as S0. pose proof (proj1 (io _) HI) as Hd.
    cbn [python_net net_with output_code size] in *. unfold md_output_code.
    assert (COPY : keeps (copy_c (Out k) NnOut (md_size U md (last (order s) O))) m) by (apply copy_keeps; [discriminate|lia|lia]).
    destruct (out_channels U (lk U md (last (order s) O))) as [[[C H] W]|] eqn:EC; [|exact COPY].
    destruct (md_last U md); [|exact COPY].
    assert (NE : previous_layer g (last (order s) O) <> []).
    { intros EP. destruct (src_kind _ Hd EP) as [E|[w Ew]].
      - rewrite E in EC. destruct (lo_input U md inp LO) as [(? & ? & ? & EK & _)|(? & EK)]; rewrite EK in EC; discriminate.
      - rewrite Ew in EC. discriminate. }
    destruct (sized_channels U _ _ _ _ _ (lo_layers U md inp LO _ Hd NE) EC) as (H1 & H2 & H3 & H4).
    fold (md_size U md (last (order s) O)) in H4.
    destruct (first_to_last_spec (tt : T U) (Out k) NnOut C H W m (firstn (Z.to_nat (C * H * W)) (m (Out k)))) as (m' & E1 & O1 & _);
      auto; try discriminate; try lia.
    - apply holds_firstn.
    - apply zlen_firstn. lia.
    - exists m'. split; [exact E1|]. intros b. apply (only_zlen m m' NnOut b O1).
  Qed.

  Lemma model_keeps m : declared net s m -> exists m', inference net s m = Some m' /\ declared net s m'.
  Proof.
    intros D. apply (inference_keeps net s (lo_linked U md inp LO) RN); [|exact model_layer_keeps|exact model_output_keeps|exact D].
    intros i. apply (size_ok m i D).
  Qed.
End ModelSafe.

(** ** Any arithmetic. *)
Section AnyModel.
  Context (N : num) (ninf : T N) (q : Q -> T N) (md : model N) (inp : nat) (s : schedule).
  Hypothesis LO : laid_out N md inp.

  Lemma blank_laid_out : laid_out U (blank_model N md) inp.
  Proof.
    constructor; try apply LO.
    - intros n Hn. rewrite (lo_constants N md inp LO n Hn). unfold lk. cbn. split; intros (w & E).
      + rewrite E. cbn. eauto.
      + destruct (lkind N (md_layer N md n)); try discriminate. eauto.
    - unfold lk. cbn. destruct (lo_input N md inp LO) as [(C & H & W & E & R)|(n & E)]; unfold lk in E; rewrite E; cbn; eauto 6.
    - intros n Hn HP. pose proof (lo_layers N md inp LO n Hn HP) as W. apply blank_sized in W. unfold lk in *. cbn in *.
      replace (map (md_size U (blank_model N md)) (previous_layer (md_graph N md) n)) with
              (map (md_size N md) (previous_layer (md_graph N md) n)); [exact W|].
      apply map_ext. intros p. unfold md_size, lk. cbn. symmetry. apply blank_size.
  Qed.

  Lemma model_stays_inside m : runnable (md_graph N md) s -> hd O (order s) = inp ->
    declared (python_net N ninf q md s) s m ->
    exists m', inference (python_net N ninf q md s) s m = Some m' /\ declared (python_net N ninf q md s) s m'.
  Proof.
    intros RN HH D. pose proof (blank_declared N ninf q md s m D) as DU.
    destruct (model_keeps (blank_model N md) inp s blank_laid_out RN HH (fun _ => eq_refl) _ DU) as (mu & E & Dm).
    destruct (sim_inference N ninf q md s _ m (fun b => zlen_blank N (m b)) mu E) as (m' & E' & L').
    exists m'. split; [exact E'|]. intros b. rewrite <- (L' b), Dm. apply blank_array_size.
  Qed.
End AnyModel.
