(** * Proofs about the Resize layers. *)
From Coq Require Import ZArith List Lia Bool QArith Qround Lqa Ring.
Import ListNotations.
From Verif Require Import CMem Tensor Num Movement MovementProofs Resize.
Open Scope Z_scope.

(** ** Rounding *)
Lemma floor_ge n x : (inject_Z n <= x)%Q -> n <= Qfloor x.
Proof. intros H. rewrite <- (Qfloor_Z n). apply Qfloor_resp_le. exact H. Qed.
Lemma floor_lt n x : (x < inject_Z n)%Q -> Qfloor x < n.
Proof. intros H. rewrite Zlt_Qlt. eapply Qle_lt_trans; [apply Qfloor_le|exact H]. Qed.
Lemma ceil_le n x : (x <= inject_Z n)%Q -> Qceiling x <= n.
Proof. intros H. rewrite <- (Qceiling_Z n). apply Qceiling_resp_le. exact H. Qed.
Lemma ceil_gt n x : (inject_Z n < x)%Q -> n < Qceiling x.
Proof. intros H. rewrite Zlt_Qlt. eapply Qlt_le_trans; [exact H|apply Qle_ceiling]. Qed.

Lemma inject_sub1 n : (inject_Z (n - 1) == inject_Z n - 1)%Q.
Proof. replace (n - 1) with (n + (-1)) by lia. rewrite inject_Z_plus. reflexivity. Qed.

Lemma halve_floor k : Qfloor (inject_Z k / 2)%Q = k / 2.
Proof.
  pose proof (Z.div_mod k 2 ltac:(lia)). pose proof (Z.mod_pos_bound k 2 ltac:(lia)).
  assert (E : (inject_Z k == inject_Z 2 * inject_Z (k / 2) + inject_Z (k mod 2))%Q).
  { rewrite <- inject_Z_mult, <- inject_Z_plus, <- H. reflexivity. }
  assert (B : (0 <= inject_Z (k mod 2) <= 1)%Q).
  { split; [change 0%Q with (inject_Z 0)|change 1%Q with (inject_Z 1)]; rewrite <- Zle_Qle; lia. }
  change (inject_Z 2) with 2%Q in E.
  apply Z.le_antisymm.
  - cut (Qfloor (inject_Z k / 2)%Q < k / 2 + 1); [lia|]. apply floor_lt. rewrite inject_Z_plus. change (inject_Z 1) with 1%Q.
    apply Qlt_shift_div_r; [reflexivity|]. lra.
  - apply floor_ge. apply Qle_shift_div_l; [reflexivity|]. lra.
Qed.
Lemma halve_ceil k : Qceiling (inject_Z k / 2)%Q = - ((- k) / 2).
Proof.
  unfold Qceiling. f_equal. rewrite <- halve_floor. apply Qfloor_comp. rewrite inject_Z_opp. field.
Qed.

(** ** Which combinations of modes always sample inside the input *)
Definition always_inside (md : cmode) (nm : nmode) (scale : Q) : Prop :=
  match md, nm with
  | (HalfPixel | PytorchHalfPixel), (RoundPreferFloor | RoundPreferCeil) => True
  | (HalfPixel | PytorchHalfPixel), (NFloor | NCeil) => (scale <= 1)%Q
  | Asymmetric, NFloor => True
  | Asymmetric, NCeil => (scale <= 1)%Q
  | Asymmetric, RoundPreferFloor => (scale <= 2)%Q
  | Asymmetric, RoundPreferCeil => (scale < 2)%Q
  | AlignCorners, _ => True
  end.

Section Range.
  Context (scale : Q) (isize osize i : Z).
  Hypothesis Hs : (0 < scale)%Q.
  Hypothesis Ho : osize = resized scale isize.
  Hypothesis Hi : 0 <= i < osize.

  Lemma i_bounds : (0 <= inject_Z i)%Q /\ (inject_Z i + 1 <= inject_Z isize * scale)%Q.
  Proof.
    split; [change 0%Q with (inject_Z 0); rewrite <- Zle_Qle; lia|].
    apply Qle_trans with (inject_Z osize).
    - change 1%Q with (inject_Z 1). rewrite <- inject_Z_plus, <- Zle_Qle. lia.
    - rewrite Ho. apply Qfloor_le.
  Qed.

  Lemma half_pixel_inside nm : always_inside HalfPixel nm scale ->
    0 <= nearest nm ((inject_Z i + (1 # 2)) / scale - (1 # 2))%Q < isize.
  Proof.
    destruct i_bounds as [B1 B2]. intros A.
    set (t := ((inject_Z i + (1 # 2)) / scale)%Q).
    assert (T0 : (0 < t)%Q) by (apply Qlt_shift_div_l; [exact Hs|lra]).
    assert (T1 : (t < inject_Z isize)%Q) by (apply Qlt_shift_div_r; [exact Hs|lra]).
    destruct nm; cbn [nearest always_inside] in *.
    - assert ((1 # 2) <= t)%Q by (apply Qle_shift_div_l; [exact Hs|lra]).
      split; [apply floor_ge; change (inject_Z 0) with 0%Q; lra|apply floor_lt; lra].
    - assert (t <= inject_Z isize - (1 # 2))%Q by (apply Qle_shift_div_r; [exact Hs|]; lra).
      split.
      + cut (-1 < Qceiling (t - (1 # 2))); [lia|]. apply ceil_gt. change (inject_Z (-1)) with (-1)%Q. lra.
      + cut (Qceiling (t - (1 # 2)) <= isize - 1); [lia|]. apply ceil_le. rewrite inject_sub1. lra.
    - rewrite halve_floor.
      assert (-1 < Qceiling (2 * (t - (1 # 2)))) by (apply ceil_gt; change (inject_Z (-1)) with (-1)%Q; lra).
      assert (Qceiling (2 * (t - (1 # 2))) <= 2 * isize - 1).
      { apply ceil_le. rewrite inject_sub1, inject_Z_mult. change (inject_Z 2) with 2%Q. lra. }
      split; [apply Z.div_pos; lia|apply Z.div_lt_upper_bound; lia].
    - rewrite halve_ceil.
      assert (-1 <= Qfloor (2 * (t - (1 # 2)))) by (apply floor_ge; change (inject_Z (-1)) with (-1)%Q; lra).
      assert (Qfloor (2 * (t - (1 # 2))) < 2 * isize - 1).
      { apply floor_lt. rewrite inject_sub1, inject_Z_mult. change (inject_Z 2) with 2%Q. lra. }
      set (k := Qfloor (2 * (t - (1 # 2)))) in *.
      pose proof (Z.div_mod (- k) 2 ltac:(lia)). pose proof (Z.mod_pos_bound (- k) 2 ltac:(lia)). lia.
  Qed.

  Lemma asymmetric_inside nm : always_inside Asymmetric nm scale ->
    0 <= nearest nm (inject_Z i / scale)%Q < isize.
  Proof.
    destruct i_bounds as [B1 B2]. intros A.
    set (t := (inject_Z i / scale)%Q).
    assert (T0 : (0 <= t)%Q) by (apply Qle_shift_div_l; [exact Hs|lra]).
    assert (T1 : (t < inject_Z isize)%Q) by (apply Qlt_shift_div_r; [exact Hs|lra]).
    destruct nm; cbn [nearest always_inside] in *.
    - split; [apply floor_ge; change (inject_Z 0) with 0%Q; lra|apply floor_lt; lra].
    - assert (t <= inject_Z isize - 1)%Q by (apply Qle_shift_div_r; [exact Hs|]; lra).
      split.
      + cut (-1 < Qceiling t); [lia|]. apply ceil_gt. change (inject_Z (-1)) with (-1)%Q. lra.
      + cut (Qceiling t <= isize - 1); [lia|]. apply ceil_le. rewrite inject_sub1. lra.
    - rewrite halve_floor. assert (t <= inject_Z isize - (1 # 2))%Q by (apply Qle_shift_div_r; [exact Hs|]; lra).
      assert (-1 < Qceiling (2 * t)) by (apply ceil_gt; change (inject_Z (-1)) with (-1)%Q; lra).
      assert (Qceiling (2 * t) <= 2 * isize - 1).
      { apply ceil_le. rewrite inject_sub1, inject_Z_mult. change (inject_Z 2) with 2%Q. lra. }
      split; [apply Z.div_pos; lia|apply Z.div_lt_upper_bound; lia].
    - rewrite halve_ceil. assert (t < inject_Z isize - (1 # 2))%Q by (apply Qlt_shift_div_r; [exact Hs|]; lra).
      assert (0 <= Qfloor (2 * t)) by (apply floor_ge; change (inject_Z 0) with 0%Q; lra).
      assert (Qfloor (2 * t) < 2 * isize - 1).
      { apply floor_lt. rewrite inject_sub1, inject_Z_mult. change (inject_Z 2) with 2%Q. lra. }
      set (k := Qfloor (2 * t)) in *.
      pose proof (Z.div_mod (- k) 2 ltac:(lia)). pose proof (Z.mod_pos_bound (- k) 2 ltac:(lia)). lia.
  Qed.

  Lemma nearest_int nm k : nearest nm (inject_Z k) = k.
  Proof.
    destruct nm; cbn [nearest].
    - apply Qfloor_Z.
    - apply Qceiling_Z.
    - rewrite halve_floor. change (2 * inject_Z k)%Q with (inject_Z 2 * inject_Z k)%Q. rewrite (Qceiling_comp _ (inject_Z (2 * k))) by (rewrite inject_Z_mult; reflexivity).
      rewrite Qceiling_Z. rewrite Z.mul_comm. apply Z.div_mul. lia.
    - rewrite halve_ceil. change (2 * inject_Z k)%Q with (inject_Z 2 * inject_Z k)%Q. rewrite (Qfloor_comp _ (inject_Z (2 * k))) by (rewrite inject_Z_mult; reflexivity).
      rewrite Qfloor_Z. replace (- (2 * k)) with ((- k) * 2) by ring. rewrite Z.div_mul by lia. lia.
  Qed.

  Lemma isize_pos : 0 < isize.
  Proof.
    destruct i_bounds as [B1 B2]. destruct (Z_lt_le_dec 0 isize) as [|H]; [assumption|exfalso].
    assert (inject_Z isize <= 0)%Q by (change 0%Q with (inject_Z 0); rewrite <- Zle_Qle; lia).
    assert (inject_Z isize * scale <= 0 * scale)%Q by (apply Qmult_le_compat_r; lra). lra.
  Qed.

  Lemma align_corners_inside nm : osize <> 1 ->
    0 <= nearest nm (inject_Z (Z.quot (i * (isize - 1)) (osize - 1))) < isize.
  Proof.
    intros H1. pose proof isize_pos. rewrite nearest_int. rewrite Z.quot_div_nonneg by nia.
    split; [apply Z.div_pos; nia|]. apply Z.div_lt_upper_bound; nia.
  Qed.
End Range.

(** ** Lists of options *)
Lemma sequence_some {A} (l : list A) : sequence (map Some l) = Some l.
Proof. induction l as [|a l IH]; cbn; [reflexivity|]. rewrite IH. reflexivity. Qed.
Lemma sequence_tab3 {A} C H W (g : Z -> Z -> Z -> option A) (h : Z -> Z -> Z -> A) : 0 <= C -> 0 <= H -> 0 <= W ->
  (forall f i j, 0 <= f < C -> 0 <= i < H -> 0 <= j < W -> g f i j = Some (h f i j)) ->
  sequence (tab3 C H W g) = Some (tab3 C H W h).
Proof.
  intros HC HH HW E. rewrite (tab3_ext C H W g (fun f i j => Some (h f i j))) by assumption.
  rewrite <- sequence_some. unfold tab3. unfold tab. rewrite !map_map. reflexivity.
Qed.

Section Loops.
  Context (N : num) (q : Q -> T N) (d : T N).
  Notation V := (T N).

  Lemma resize_loops_ok cell src out p act x (val : Z -> Z -> Z -> V) :
    out <> Temp -> src <> Temp -> 0 <= rC p -> 0 <= rOH p -> 0 <= rOW p ->
    (forall m f i j, holds m src x -> 0 <= f < rC p -> 0 <= i < rOH p -> 0 <= j < rOW p -> cell f i j m = Some (val f i j)) ->
    let n := rC p * rOH p * rOW p in
    layer_ok (resize_loops N cell out p act) [(src, x)] out n n (tab3 (rC p) (rOH p) (rOW p) (fun f i j => act (val f i j))).
  Proof.
    intros Ho Hs HC HH HW Hcell n. unfold resize_loops. rewrite <- (map_id (tab3 _ _ _ _)).
    apply via_temp_ok; [exact Ho|apply zlen_tab3; assumption|].
    intros m Hm Ht. apply holds_src1 in Hm. apply fill3_stores; try assumption.
    intros f i j m' Hf Hi Hj O.
    assert (Hm' : holds m' src x) by (eapply holds_other; eauto).
    rewrite (Hcell m' f i j Hm' Hf Hi Hj). cbn [bind]. fold (idx3 (rOH p) (rOW p) f i j).
    pose proof (idx3_range (rC p) (rOH p) (rOW p) f i j Hf Hi Hj) as R.
    destruct (wr_stores m' Temp (idx3 (rOH p) (rOW p) f i j) (val f i j)) as (m1 & E1 & S1).
    { rewrite (only_zlen m m' Temp Temp O). fold n in Ht. lia. }
    rewrite E1. cbn [bind]. pose proof S1 as (O1 & R1 & _). rewrite R1. cbn [bind].
    destruct (wr_stores m1 Temp (idx3 (rOH p) (rOW p) f i j) (act (val f i j))) as (m2 & E2 & S2).
    { rewrite (only_zlen m' m1 Temp Temp O1), (only_zlen m m' Temp Temp O). fold n in Ht. lia. }
    exists m2. split; [exact E2|]. eapply stores_trans; eauto.
  Qed.

  (** *** Nearest *)
  Lemma nearest_c_ok nm src out p act x (kx ky : Z -> Z) :
    out <> Temp -> src <> Temp -> 0 <= rC p -> 0 <= rOH p -> 0 <= rOW p -> zlen x = rC p * rH p * rW p ->
    (forall i, 0 <= i < rOH p -> exists u, cx coord_c p i = Some u /\ nearest nm u = kx i /\ 0 <= kx i < rH p) ->
    (forall j, 0 <= j < rOW p -> exists u, cy coord_c p j = Some u /\ nearest nm u = ky j /\ 0 <= ky j < rW p) ->
    let n := rC p * rOH p * rOW p in
    layer_ok (nearest_c N nm src out p act) [(src, x)] out n n
      (tab3 (rC p) (rOH p) (rOW p) (fun f i j => act (at3 d (rH p) (rW p) x f (kx i) (ky j)))).
  Proof.
    intros Ho Hs HC HH HW Hx Kx Ky n. unfold nearest_c. rewrite <- (map_id (tab3 _ _ _ _)).
    apply via_temp_ok; [exact Ho|apply zlen_tab3; assumption|].
    intros m Hm Ht. apply holds_src1 in Hm. apply fill3; try assumption.
    intros f i j m' Hf Hi Hj O _ _.
    assert (Hm' : holds m' src x) by (eapply holds_other; eauto).
    destruct (Kx i Hi) as (u & E1 & E2 & E3). destruct (Ky j Hj) as (v & F1 & F2 & F3).
    rewrite E1, F1. cbn [bind]. rewrite E2, F2.
    rewrite (rd_at3 d m' src x (rC p) (rH p) (rW p) f (kx i) (ky j)); auto.
  Qed.

  Lemma nearest_py_ok nm p x (kx ky : Z -> Z) :
    0 <= rC p -> 0 <= rOH p -> 0 <= rOW p -> zlen x = rC p * rH p * rW p ->
    (forall i, 0 <= i < rOH p -> exists u, cx coord_py p i = Some u /\ nearest nm u = kx i /\ 0 <= kx i < rH p) ->
    (forall j, 0 <= j < rOW p -> exists u, cy coord_py p j = Some u /\ nearest nm u = ky j /\ 0 <= ky j < rW p) ->
    nearest_py N nm p x = Some (tab3 (rC p) (rOH p) (rOW p) (fun f i j => at3 d (rH p) (rW p) x f (kx i) (ky j))).
  Proof.
    intros HC HH HW Hx Kx Ky. unfold nearest_py. apply sequence_tab3; try assumption.
    intros f i j Hf Hi Hj. destruct (Kx i Hi) as (u & E1 & E2 & E3). destruct (Ky j Hj) as (v & F1 & F2 & F3).
    rewrite E1, F1. cbn [bind]. rewrite E2, F2. unfold py_index.
    destruct (Z.leb_spec 0 (kx i)), (Z.ltb_spec (kx i) (rH p)), (Z.leb_spec 0 (ky j)), (Z.ltb_spec (ky j) (rW p)); try lia. cbn [andb bind].
    apply (rdl_at3 d x (rC p)); auto.
  Qed.

  (** *** Linear *)
  Lemma qclip_range n u : 0 < n -> 0 <= Qfloor (qclip n u) < n.
  Proof.
    intros Hn. unfold qclip. destruct (Qlt_le_dec u 0) as [H|H].
    - change 0%Q with (inject_Z 0). rewrite Qfloor_Z. lia.
    - destruct (Qlt_le_dec (inject_Z (n - 1)) u) as [G|G].
      + rewrite Qfloor_Z. lia.
      + split; [apply floor_ge; exact H|]. apply floor_lt. eapply Qle_lt_trans; [exact G|]. rewrite <- Zlt_Qlt. lia.
  Qed.

  Lemma linear_cell_2d_ok src p x m f i j u v :
    0 < rH p -> 0 < rW p -> zlen x = rC p * rH p * rW p -> 0 <= f < rC p -> holds m src x ->
    cx coord_c p i = Some u -> cy coord_c p j = Some v ->
    linear_cell_2d N q src p f i j m =
      let u := qclip (rH p) u in let v := qclip (rW p) v in
      let x0 := Qfloor u in let x1 := Qfloor u + 1 in let y0 := Qfloor v in let y1 := Qfloor v + 1 in
      let a := at3 d (rH p) (rW p) x f in
      Some (bilinear N q (a x0 y0) (if rH p <=? x1 then n0 N else a x1 y0)
              (if (rH p <=? x1) || (rW p <=? y1) then n0 N else a x1 y1)
              (if rW p <=? y1 then n0 N else a x0 y1) u v x0 x1 y0 y1).
  Proof.
    intros HH HW Hx Hf Hm Eu Ev. unfold linear_cell_2d. rewrite Eu, Ev. cbn [bind]. cbv zeta.
    pose proof (qclip_range (rH p) u HH) as Rx. pose proof (qclip_range (rW p) v HW) as Ry.
    set (u' := qclip (rH p) u) in *. set (v' := qclip (rW p) v) in *.
    rewrite (rd_at3 d m src x (rC p) (rH p) (rW p) f (Qfloor u') (Qfloor v')) by auto. cbn [bind].
    destruct (Z.leb_spec (rH p) (Qfloor u' + 1)); destruct (Z.leb_spec (rW p) (Qfloor v' + 1)); cbn [orb bind]; try reflexivity.
    - rewrite (rd_at3 d m src x (rC p) (rH p) (rW p) f (Qfloor u') (Qfloor v' + 1)) by (auto; lia). reflexivity.
    - rewrite (rd_at3 d m src x (rC p) (rH p) (rW p) f (Qfloor u' + 1) (Qfloor v')) by (auto; lia). reflexivity.
    - rewrite (rd_at3 d m src x (rC p) (rH p) (rW p) f (Qfloor u' + 1) (Qfloor v')) by (auto; lia). cbn [bind].
      rewrite (rd_at3 d m src x (rC p) (rH p) (rW p) f (Qfloor u' + 1) (Qfloor v' + 1)) by (auto; lia). cbn [bind].
      rewrite (rd_at3 d m src x (rC p) (rH p) (rW p) f (Qfloor u') (Qfloor v' + 1)) by (auto; lia). reflexivity.
  Qed.

  (** *** Cubic *)
  Lemma clamp_eq n k : 0 < n -> cclamp n k = pyclamp n k /\ 0 <= pyclamp n k < n.
  Proof. intros H. unfold cclamp, pyclamp. destruct (Z.ltb_spec k 0); [lia|]. destruct (Z.leb_spec n k); lia. Qed.

  Section Ring.
    Context (L : ring_laws N).
    Add Ring NRR : (num_ring_theory N L).
    Lemma cubic_same a s f_1 f0 f1 f2 : cubic_c4 N a s f_1 f0 f1 f2 = cubic_py4 N a s f_1 f0 f1 f2.
    Proof. unfold cubic_c4, cubic_py4, coeff1, coeff2, coeff3, coeff4, five, eight, four. ring. Qed.
    Lemma cubic_constant a s v : cubic_py4 N a s v v v v = v.
    Proof. unfold cubic_py4, coeff1, coeff2, coeff3, coeff4, five, eight, four. ring. Qed.
    Lemma cubic_outer a s b_1 b0 b1 b2 :
      nadd N (nadd N (nadd N (nmul N (coeff1 N a s) b_1) (nmul N (coeff2 N a s) b0)) (nmul N (coeff3 N a s) b1)) (nmul N (coeff4 N a s) b2)
      = cubic_py4 N a s b_1 b0 b1 b2.
    Proof. unfold cubic_py4. ring. Qed.
  End Ring.
End Loops.

Section Cubic.
  Context (N : num) (q : Q -> T N) (d : T N) (L : ring_laws N).
  Notation V := (T N).

  Lemma cubic_column_ok a src p x m f x0 col s :
    0 < rH p -> 0 < rW p -> zlen x = rC p * rH p * rW p -> 0 <= f < rC p -> holds m src x ->
    cubic_column_c N a src p f x0 col s m = Some (cubic_1d_py N a p d x f x0 col s).
  Proof.
    intros HH HW Hx Hf Hm. unfold cubic_column_c, cubic_1d_py. cbv zeta.
    assert (R : forall k, rd m src (cclamp (rW p) col + rW p * (cclamp (rH p) k + rH p * f)) =
                 Some (at3 d (rH p) (rW p) x f (pyclamp (rH p) k) (pyclamp (rW p) col))).
    { intros k. destruct (clamp_eq (rW p) col HW) as [-> B1]. destruct (clamp_eq (rH p) k HH) as [-> B2].
      apply (rd_at3 d m src x (rC p)); auto. }
    rewrite !R. cbn [bind]. rewrite (cubic_same N L). reflexivity.
  Qed.

  Definition cubic_value (a : V) (p : rparams) (x : list V) (u v : Q) (f : Z) : V :=
    let x0 := Qfloor u in let y0 := Qfloor v in
    let col k := cubic_1d_py N a p d x f x0 k (q (u - inject_Z x0)%Q) in
    cubic_py4 N a (q (v - inject_Z y0)%Q) (col (y0 - 1)) (col y0) (col (y0 + 1)) (col (y0 + 2)).

  Lemma cubic_cell_2d_ok a src p x m f i j u v :
    0 < rH p -> 0 < rW p -> zlen x = rC p * rH p * rW p -> 0 <= f < rC p -> holds m src x ->
    cx coord_c p i = Some u -> cy coord_c p j = Some v ->
    cubic_cell_2d N q a src p f i j m = Some (cubic_value a p x u v f).
  Proof.
    intros HH HW Hx Hf Hm Eu Ev. unfold cubic_cell_2d, cubic_value. rewrite Eu, Ev. cbn [bind]. cbv zeta.
    rewrite !(cubic_column_ok a src p x m f) by assumption. cbn [bind]. rewrite (cubic_same N L). reflexivity.
  Qed.

  Lemma pyclamp_1 k : pyclamp 1 k = 0.
  Proof. unfold pyclamp. lia. Qed.

  Lemma cubic_cell_row_ok a src p x m f i j u v :
    rH p = 1 -> 0 < rW p -> zlen x = rC p * rH p * rW p -> 0 <= f < rC p -> holds m src x ->
    cy coord_c p j = Some v ->
    cubic_cell_1d N q a src (rW p) (fun _ j => cy coord_c p j) f i j m = Some (cubic_value a p x u v f).
  Proof.
    intros HH HW Hx Hf Hm Ev. unfold cubic_cell_1d, cubic_value. rewrite Ev. cbn [bind]. cbv zeta.
    assert (R : forall k, rd m src (cclamp (rW p) k + rW p * f) = Some (at3 d 1 (rW p) x f 0 (pyclamp (rW p) k))).
    { intros k. destruct (clamp_eq (rW p) k HW) as [-> B1].
      apply (rd_at3 d m src x (rC p) 1 (rW p)); first [exact Hm|lia|rewrite Hx, HH; reflexivity|unfold idx3; ring]. }
    rewrite !R. cbn [bind]. rewrite (cubic_same N L).
    unfold cubic_1d_py. rewrite HH. rewrite !pyclamp_1. rewrite !(cubic_constant N L). reflexivity.
  Qed.

  Lemma cubic_cell_col_ok a src p x m f i j u v :
    0 < rH p -> rW p = 1 -> zlen x = rC p * rH p * rW p -> 0 <= f < rC p -> holds m src x ->
    cx coord_c p i = Some u ->
    cubic_cell_1d N q a src (rH p) (fun i _ => cx coord_c p i) f i j m = Some (cubic_value a p x u v f).
  Proof.
    intros HH HW Hx Hf Hm Eu. unfold cubic_cell_1d, cubic_value. rewrite Eu. cbn [bind]. cbv zeta.
    assert (R : forall k, rd m src (cclamp (rH p) k + rH p * f) = Some (at3 d (rH p) 1 x f (pyclamp (rH p) k) 0)).
    { intros k. destruct (clamp_eq (rH p) k HH) as [-> B1].
      apply (rd_at3 d m src x (rC p) (rH p) 1); first [exact Hm|lia|rewrite Hx, HW; reflexivity|unfold idx3; ring]. }
    rewrite !R. cbn [bind]. rewrite (cubic_same N L).
    unfold cubic_1d_py. rewrite HW. rewrite !pyclamp_1. rewrite (cubic_constant N L). reflexivity.
  Qed.

  Lemma cubic_py_ok a p x : 0 <= rC p -> 0 <= rOH p -> 0 <= rOW p ->
    forall ux uy, (forall i, 0 <= i < rOH p -> cx coord_py p i = Some (ux i)) -> (forall j, 0 <= j < rOW p -> cy coord_py p j = Some (uy j)) ->
    cubic_py N q a p d x = Some (tab3 (rC p) (rOH p) (rOW p) (fun f i j => cubic_value a p x (ux i) (uy j) f)).
  Proof.
    intros HC HH HW ux uy Ux Uy. unfold cubic_py. apply sequence_tab3; try assumption.
    intros f i j Hf Hi Hj. rewrite (Ux i Hi), (Uy j Hj). cbn [bind]. cbv zeta. rewrite (cubic_outer N L). reflexivity.
  Qed.
End Cubic.
