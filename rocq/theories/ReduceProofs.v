(** * Correctness of the Reduce and Softmax code. *)
From Coq Require Import ZArith List Lia Bool.
Import ListNotations.
Open Scope Z_scope.
From Verif Require Import CMem Tensor Num Activation Pad Reduce.

Lemma fold_tab {A B} (step : A -> B -> A) n (f : Z -> B) a : 0 <= n ->
  fold_left step (tab n f) a = iterZ n (fun j u => step u (f j)) a.
Proof.
  revert n. apply for_ind.
  - rewrite tab_0, iterZ_0 by lia. reflexivity.
  - intros n Hn IH. rewrite tab_succ, iterZ_succ by lia. rewrite fold_left_app, IH. reflexivity.
Qed.

Lemma tab3_1HW {A} H W (f : Z -> Z -> Z -> A) : 0 <= H -> 0 <= W -> tab3 1 H W f = tab2 H W (f 0).
Proof.
  intros HH HW. unfold tab3, tab2. rewrite Z.mul_1_l. apply tab_ext. intros k Hk.
  rewrite Z.div_small by lia. f_equal. apply Z.mod_small. split; [apply Z.div_pos; nia|apply Z.div_lt_upper_bound; nia].
Qed.
Lemma tab3_C1W {A} C W (f : Z -> Z -> Z -> A) : tab3 C 1 W f = tab2 C W (fun c w => f c 0 w).
Proof.
  unfold tab3, tab2. rewrite Z.mul_1_r, Z.mul_1_l. apply tab_ext. intros k Hk. rewrite Z.mod_1_r. reflexivity.
Qed.
Lemma tab3_CH1 {A} C H (f : Z -> Z -> Z -> A) : tab3 C H 1 f = tab2 C H (fun c h => f c h 0).
Proof.
  unfold tab3, tab2. rewrite !Z.mul_1_r. apply tab_ext. intros k Hk. rewrite Z.mod_1_r, Z.div_1_r. reflexivity.
Qed.
Lemma tab2_1W {A} W (f : Z -> Z -> A) : 0 <= W -> tab2 1 W f = tab W (f 0).
Proof.
  intros HW. unfold tab2. rewrite Z.mul_1_l. apply tab_ext. intros k Hk. rewrite Z.div_small, Z.mod_small by lia. reflexivity.
Qed.
Lemma tab2_H1 {A} H (f : Z -> Z -> A) : tab2 H 1 f = tab H (fun h => f h 0).
Proof. unfold tab2. rewrite Z.mul_1_r. apply tab_ext. intros k Hk. rewrite Z.mod_1_r, Z.div_1_r. reflexivity. Qed.

Section Acc.
  Context {V : Type}.
  Lemma stores_refl (m : mem V) b k v : rd m b k = Some v -> stores m m b k v.
  Proof. intros R. split; [apply only_refl|]. split; [exact R|reflexivity]. Qed.

  (** A loop that updates one cell. *)
  Lemma acc_loop (m0 : mem V) b p n (stmt : Z -> mem V -> option (mem V)) (step : Z -> V -> V) a :
    0 <= n -> rd m0 b p = Some a ->
    (forall j m u, 0 <= j < n -> only m0 m b -> rd m b p = Some u ->
       exists m', stmt j m = Some m' /\ stores m m' b p (step j u)) ->
    exists m', for_ n stmt m0 = Some m' /\ stores m0 m' b p (iterZ n step a).
  Proof.
    intros Hn R HB.
    apply (for_inv (fun j m => stores m0 m b p (iterZ j step a)) n stmt m0 Hn).
    - rewrite iterZ_0 by lia. apply stores_refl. exact R.
    - intros j m Hj S. pose proof S as (O & R1 & _).
      destruct (HB j m _ Hj O R1) as (m' & E & S'). exists m'. split; [exact E|].
      rewrite iterZ_succ by lia. eapply stores_trans; eauto.
  Qed.

  (** Filling a two-dimensional array by bodies that may write their cell many times. *)
  Lemma fill2_stores D1 D2 (body : Z -> Z -> mem V -> option (mem V)) (val : Z -> Z -> V) b m :
    0 <= D1 -> 0 <= D2 -> D1 * D2 <= zlen (m b) ->
    (forall f i m', 0 <= f < D1 -> 0 <= i < D2 -> only m m' b ->
        exists m2, body f i m' = Some m2 /\ stores m' m2 b (i + D2 * f) (val f i)) ->
    exists m', for_ D1 (fun f => for_ D2 (body f)) m = Some m' /\ only m m' b /\ holds m' b (tab2 D1 D2 val).
  Proof.
    intros H1 H2 HL HB. rewrite for_nest by assumption.
    destruct (fill_stores_aux (fun m => m) (fun _ _ => True) (D1 * D2)
      (fun k => body (k / D2) (k mod D2)) (fun k => val (k / D2) (k mod D2)) b m) as (m' & E & O & Hh & _); [nia|exact HL|exact I| |eauto].
    intros k m' Hk O _ _ _. destruct (tab2_range D1 D2 k) as (Q2 & Q3 & R2 & R3); auto.
    destruct (HB _ _ m' R2 R3 O) as (m2 & E2 & S2).
    replace (k mod D2 + D2 * (k / D2)) with k in S2 by (pose proof (Z.div_mod k D2 ltac:(lia)); lia). eauto.
  Qed.
  Lemma fill1_stores D (body : Z -> mem V -> option (mem V)) (val : Z -> V) b m :
    0 <= D -> D <= zlen (m b) ->
    (forall f m', 0 <= f < D -> only m m' b ->
        exists m2, body f m' = Some m2 /\ stores m' m2 b f (val f)) ->
    exists m', for_ D body m = Some m' /\ only m m' b /\ holds m' b (tab D val).
  Proof.
    intros H1 HL HB.
    destruct (fill_stores_aux (fun m => m) (fun _ _ => True) D body val b m) as (m' & E & O & Hh & _); [lia|exact HL|exact I| |eauto].
    intros k m' Hk O _ _ _. destruct (HB k m' Hk O) as (m2 & E2 & S2). eauto.
  Qed.
End Acc.

Section ReduceOk.
  Context (N : num).
  Notation V := (T N).
  Notation mem := (mem V).

  Definition rs0 (k : rkind) (first : V) : V :=
    match k with RSum | RMean => n0 N | RProd => n1 N | RMax | RMin => first end.
  Definition rfin (k : rkind) (n : Z) (s : V) : V := match k with RMean => ndiv N s (nofZ N n) | _ => s end.

  Lemma red_value_fold k n (cell : Z -> V) : 0 < n ->
    rfin k n (iterZ n (fun j u => racc N k u (cell j)) (rs0 k (cell 0))) = red_value N k (tab n cell).
  Proof.
    intros Hn. rewrite <- fold_tab by lia. unfold rfin, red_value, rs0. destruct k.
    - reflexivity.
    - rewrite zlen_tab by lia. reflexivity.
    - reflexivity.
    - assert (E : exists l, tab n cell = cell 0 :: l).
      { unfold tab. destruct (Z.to_nat n) eqn:En; [lia|]. cbn. eauto. }
      destruct E as (l & ->). cbn [fold_left]. unfold racc at 2. destruct (nlt N (cell 0) (cell 0)); reflexivity.
    - assert (E : exists l, tab n cell = cell 0 :: l).
      { unfold tab. destruct (Z.to_nat n) eqn:En; [lia|]. cbn. eauto. }
      destruct E as (l & ->). cbn [fold_left]. unfold racc at 2. destruct (nlt N (cell 0) (cell 0)); reflexivity.
  Qed.

  Lemma racc_temp_ok k src cmpb pos p (m : mem) u v :
    rd m Temp p = Some u -> rd m src pos = Some v -> (k = RMax \/ k = RMin -> rd m cmpb pos = Some v) ->
    exists m', racc_temp N k src cmpb pos p m = Some m' /\ stores m m' Temp p (racc N k u v).
  Proof.
    intros Ru Rv Rc. pose proof (rdl_range _ _ _ Ru) as Hp. unfold racc_temp. rewrite Ru, Rv. cbn [bind].
    destruct k; try (apply wr_stores; exact Hp).
    - rewrite Rc by auto. cbn [bind]. unfold racc. destruct (nlt N u v); [apply wr_stores; exact Hp|].
      exists m. split; [reflexivity|]. apply stores_refl. exact Ru.
    - rewrite Rc by auto. cbn [bind]. unfold racc. destruct (nlt N v u); [apply wr_stores; exact Hp|].
      exists m. split; [reflexivity|]. apply stores_refl. exact Ru.
  Qed.

  Lemma rdivide_ok k nb p (m : mem) u : rd m Temp p = Some u ->
    exists m', rdivide N k nb p m = Some m' /\ stores m m' Temp p (rfin k nb u).
  Proof.
    intros Ru. pose proof (rdl_range _ _ _ Ru) as Hp. unfold rdivide, rfin.
    destruct k; try (exists m; split; [reflexivity|apply stores_refl; exact Ru]).
    rewrite Ru. cbn [bind]. apply wr_stores. exact Hp.
  Qed.

  Lemma reduce_one_ok k src out D1 D2 R pos first act x cell :
    out <> Temp -> src <> Temp -> 0 <= D1 -> 0 <= D2 -> 0 < R ->
    (forall f i j, 0 <= f < D1 -> 0 <= i < D2 -> 0 <= j < R -> rdl x (pos f i j) = Some (cell f i j)) ->
    (forall f i, first f i = pos f i 0) ->
    layer_ok (reduce_one N k src out D1 D2 R pos first (D1 * D2) act) [(src, x)] out (D1 * D2) (D1 * D2)
      (map act (tab2 D1 D2 (fun f i => red_value N k (tab R (cell f i))))).
  Proof.
    intros Ho Hs H1 H2 HR Hpos Hfirst. unfold reduce_one.
    apply via_temp_ok; [exact Ho|unfold tab2; apply zlen_tab; nia|].
    intros m Hm Ht. apply holds_src1 in Hm. apply fill2_stores; auto.
    intros f i m' Hf Hi O.
    assert (Hm' : holds m' src x) by (eapply holds_other; eauto).
    assert (Hp : 0 <= i + D2 * f < zlen (m' Temp)) by (rewrite (only_zlen _ _ _ _ O); nia).
    assert (RD : forall m'', only m' m'' Temp -> forall j, 0 <= j < R -> rd m'' src (pos f i j) = Some (cell f i j)).
    { intros m'' O'' j Hj. assert (Hm'' : holds m'' src x) by (eapply holds_other; eauto).
      pose proof (Hpos f i j Hf Hi Hj) as E. rewrite (holds_rd m'' src x); auto. eapply rdl_range; eauto. }
    assert (S0 : rstart N k src (first f i) m' = Some (rs0 k (cell f i 0))).
    { unfold rstart, rs0. rewrite Hfirst. destruct k; auto; apply RD; auto using only_refl; lia. }
    rewrite S0. cbn [bind].
    destruct (wr_stores m' Temp (i + D2 * f) (rs0 k (cell f i 0)) Hp) as (m0 & E0 & T0). rewrite E0. cbn [bind].
    destruct (acc_loop m0 Temp (i + D2 * f) R (fun j => racc_temp N k src src (pos f i j) (i + D2 * f))
      (fun j u => racc N k u (cell f i j)) (rs0 k (cell f i 0))) as (m1 & E1 & T1).
    - lia.
    - apply T0.
    - intros j m'' u Hj O'' Ru. apply racc_temp_ok; auto.
      + apply RD; auto. destruct T0 as (O0 & _). destruct O0 as [L0 Q0]. destruct O'' as [L Q]. split; [lia|]. intros b Hb. rewrite Q, Q0; auto.
      + intros _. apply RD; auto. destruct T0 as (O0 & _). destruct O0 as [L0 Q0]. destruct O'' as [L Q]. split; [lia|]. intros b Hb. rewrite Q, Q0; auto.
    - rewrite E1. cbn [bind]. destruct (rdivide_ok k R (i + D2 * f) m1 _ (proj1 (proj2 T1))) as (m2 & E2 & T2).
      exists m2. split; [exact E2|]. rewrite (red_value_fold k R (cell f i) HR) in T2.
      eapply stores_trans; [exact T0|]. eapply stores_trans; eauto.
  Qed.

  Lemma reduce_two_ok k src out D R1 R2 pos first act x cell :
    out <> Temp -> src <> Temp -> 0 <= D -> 0 < R1 -> 0 < R2 -> k <> RMax -> k <> RMin ->
    (forall f i j, 0 <= f < D -> 0 <= i < R1 -> 0 <= j < R2 -> rdl x (pos f i j) = Some (cell f i j)) ->
    layer_ok (reduce_two N k src out D R1 R2 pos first D act) [(src, x)] out D D
      (map act (tab D (fun f => red_value N k (tab2 R1 R2 (cell f))))).
  Proof.
    intros Ho Hs HD HR1 HR2 K1 K2 Hpos. unfold reduce_two.
    apply via_temp_ok; [exact Ho|apply zlen_tab; lia|].
    intros m Hm Ht. apply holds_src1 in Hm. apply fill1_stores; auto.
    intros f m' Hf O.
    assert (Hm' : holds m' src x) by (eapply holds_other; eauto).
    assert (Hp : 0 <= f < zlen (m' Temp)) by (rewrite (only_zlen _ _ _ _ O); lia).
    set (c' := fun q => cell f (q / R2) (q mod R2)).
    assert (S0 : rstart N k src (first f) m' = Some (rs0 k (c' 0))).
    { unfold rstart, rs0. destruct k; auto; congruence. }
    rewrite S0. cbn [bind].
    destruct (wr_stores m' Temp f (rs0 k (c' 0)) Hp) as (m0 & E0 & T0). rewrite E0. cbn [bind].
    rewrite for_nest by lia.
    destruct (acc_loop m0 Temp f (R1 * R2) (fun q => racc_temp N k src out (pos f (q / R2) (q mod R2)) f)
      (fun j u => racc N k u (c' j)) (rs0 k (c' 0))) as (m1 & E1 & T1).
    - nia.
    - apply T0.
    - intros j m'' u Hj O'' Ru. apply racc_temp_ok; auto; [|intros [?|?]; contradiction].
      destruct (tab2_range R1 R2 j) as (Q1 & Q2 & B1 & B2); auto; try lia.
      assert (Hm'' : holds m'' src x).
      { eapply holds_other; [|exact Hs|exact Hm']. destruct T0 as (O0 & _). destruct O0 as [L0 Q0]. destruct O'' as [L Q]. split; [lia|]. intros b Hb. rewrite Q, Q0; auto. }
      pose proof (Hpos f _ _ Hf B1 B2) as E. rewrite (holds_rd m'' src x); auto. eapply rdl_range; eauto.
    - rewrite E1. cbn [bind]. destruct (rdivide_ok k (R1 * R2) f m1 _ (proj1 (proj2 T1))) as (m2 & E2 & T2).
      exists m2. split; [exact E2|]. rewrite (red_value_fold k (R1 * R2) c' ltac:(nia)) in T2.
      eapply stores_trans; [exact T0|]. eapply stores_trans; eauto.
  Qed.

  Lemma reduce_all_ok k src out size act x :
    out <> Temp -> 0 < size -> zlen x = size ->
    layer_ok (reduce_all N k src out size act) [(src, x)] out 1 1 [act (red_value N k x)].
  Proof.
    intros Ho Hz Hx m Hm Ht Hout. apply holds_src1 in Hm. unfold reduce_all.
    set (cell := nthZ (n0 N) x).
    assert (RD : forall q, 0 <= q < size -> rd m src q = Some (cell q)) by (intros q Hq; apply holds_rd_nthZ; [exact Hm|lia]).
    assert (S0 : rstart N k src 0 m = Some (rs0 k (cell 0))).
    { unfold rstart, rs0. destruct k; auto; apply RD; lia. }
    rewrite S0. cbn [bind].
    rewrite (for_pure size _ (fun j u => racc N k u (cell j))); [|intros i s Hi; rewrite RD by exact Hi; reflexivity]. cbn [bind].
    match goal with |- context [wr m out 0 (act ?v)] => set (w := v) end.
    assert (W : w = red_value N k x).
    { unfold w. rewrite (tab_nthZ (n0 N) x), Hx. fold cell. rewrite <- (red_value_fold k size cell Hz). unfold rfin. destruct k; reflexivity. }
    rewrite W.
    destruct (wr_spec m out 0 (act (red_value N k x))) as (m' & E & L & R1 & R2 & O); [lia|].
    exists m'. split; [exact E|]. split; [|split].
    - apply holds_intro; [rewrite zlen_cons, zlen_nil; lia|]. intros q Hq. change (zlen [act (red_value N k x)]) with 1 in Hq.
      replace q with 0 by lia. rewrite R1. reflexivity.
    - intros b. destruct (bname_eq_dec b out) as [->|Hb]; [lia|rewrite O by exact Hb; reflexivity].
    - intros b H1 H2. apply O. exact H2.
  Qed.

  (** ** The whole layer. *)
  (** At most one axis, or a kind without comparison, or all axes. *)
  Definition reduce_supported (k : rkind) (axes : list Z) (noop : bool) : Prop :=
    Forall (fun a => 1 <= a <= 3) axes /\ (axes = [] -> noop = false) /\
    ((k = RMax \/ k = RMin) ->
      (in_axes 1 axes = in_axes 2 axes /\ in_axes 2 axes = in_axes 3 axes) \/
      (in_axes 1 axes = true /\ in_axes 2 axes = false /\ in_axes 3 axes = false) \/
      (in_axes 1 axes = false /\ in_axes 2 axes = true /\ in_axes 3 axes = false) \/
      (in_axes 1 axes = false /\ in_axes 2 axes = false /\ in_axes 3 axes = true)).

  Lemma reduce_ok k src out C H W axes noop act x :
    out <> Temp -> src <> Temp -> 0 < C -> 0 < H -> 0 < W -> zlen x = C * H * W ->
    reduce_supported k axes noop ->
    let n := red_dim 1 C axes noop * red_dim 2 H axes noop * red_dim 3 W axes noop in
    layer_ok (reduce_c N k src out C H W axes noop act) [(src, x)] out n n (map act (reduce_py N k C H W axes noop x)).
  Proof.
    intros Ho Hs HC HH HW Hx (Hax & Hno & Hk) n. subst n. unfold reduce_c, reduce_py, red_dim.
    assert (EA : empty_axes axes && noop = false).
    { destruct axes; [rewrite (Hno eq_refl); reflexivity|reflexivity]. }
    rewrite EA.
    assert (RD : forall c h w p, 0 <= c < C -> 0 <= h < H -> 0 <= w < W -> p = idx3 H W c h w -> rdl x p = Some (at3 (n0 N) H W x c h w)).
    { intros c h w p Hc Hh Hw ->. eapply rdl_at3; eauto. }
    assert (All : tab3 C H W (at3 (n0 N) H W x) = x) by (apply tab3_at3; lia).
    destruct axes as [|a0 axes'].
    { cbn [in_axes existsb empty_axes]. rewrite (Hno eq_refl). cbn [orb andb negb]. rewrite !Z.mul_1_r.
      pose proof (reduce_all_ok k src out (C * H * W) act x Ho ltac:(nia) Hx) as G.
      replace (map act _) with [act (red_value N k x)]; [exact G|].
      transitivity (map act [red_value N k (red_cells N C H W true true true x 0 0 0)]); [|reflexivity].
      change (red_cells N C H W true true true x 0 0 0) with (tab3 C H W (at3 (n0 N) H W x)). rewrite All. reflexivity. }
    cbn [empty_axes]. remember (a0 :: axes') as axes eqn:EX. assert (NE : axes <> []) by (subst; discriminate). clear EX.
    destruct (in_axes 1 axes) eqn:I1; destruct (in_axes 2 axes) eqn:I2; destruct (in_axes 3 axes) eqn:I3; cbn [orb andb].
    - (* chw *) rewrite !Z.mul_1_r. pose proof (reduce_all_ok k src out (C * H * W) act x Ho ltac:(nia) Hx) as G.
      replace (map act _) with [act (red_value N k x)]; [exact G|]. transitivity (map act [red_value N k (red_cells N C H W true true true x 0 0 0)]); [|reflexivity].
      change (red_cells N C H W true true true x 0 0 0) with (tab3 C H W (at3 (n0 N) H W x)). rewrite All. reflexivity.
    - (* ch *) rewrite !Z.mul_1_l.
      pose proof (reduce_two_ok k src out W C H (fun f i j => f + W * (j + H * i)) (fun f => W * f) act x (fun w c h => at3 (n0 N) H W x c h w) Ho Hs) as G.
      rewrite tab3_1HW, tab2_1W by lia. cbn in G.
      erewrite tab_ext; [apply G; try lia|].
      + intros ->. destruct Hk as [(A1 & A2)|[(A1 & A2 & A3)|[(A1 & A2 & A3)|(A1 & A2 & A3)]]]; auto; congruence.
      + intros ->. destruct Hk as [(A1 & A2)|[(A1 & A2 & A3)|[(A1 & A2 & A3)|(A1 & A2 & A3)]]]; auto; congruence.
      + intros f i j Hf Hi Hj. apply RD; auto.
      + intros w Hw. cbv beta. f_equal. unfold red_cells. rewrite tab3_CH1. reflexivity.
    - (* cw *) rewrite !Z.mul_1_l, !Z.mul_1_r.
      pose proof (reduce_two_ok k src out H C W (fun f i j => j + W * (f + H * i)) (fun f => H * f) act x (fun h c w => at3 (n0 N) H W x c h w) Ho Hs) as G.
      rewrite tab3_1HW, tab2_H1 by lia. cbn in G.
      erewrite tab_ext; [apply G; try lia|].
      + intros ->. destruct Hk as [(A1 & A2)|[(A1 & A2 & A3)|[(A1 & A2 & A3)|(A1 & A2 & A3)]]]; auto; congruence.
      + intros ->. destruct Hk as [(A1 & A2)|[(A1 & A2 & A3)|[(A1 & A2 & A3)|(A1 & A2 & A3)]]]; auto; congruence.
      + intros f i j Hf Hi Hj. apply RD; auto.
      + intros w Hw. cbv beta. f_equal. unfold red_cells. rewrite tab3_C1W. reflexivity.
    - (* c *) rewrite !Z.mul_1_l.
      pose proof (reduce_one_ok k src out H W C (fun f i j => i + W * (f + H * j)) (fun f i => i + W * f) act x (fun h w c => at3 (n0 N) H W x c h w) Ho Hs) as G.
      rewrite tab3_1HW by lia. cbn in G.
      erewrite tab2_ext; [apply G; try lia| lia|lia|].
      + intros f i j Hf Hi Hj. apply RD; auto.
      + intros h w Hh Hw. cbv beta. f_equal. unfold red_cells. rewrite tab3_CH1, tab2_H1. reflexivity.
    - (* hw *) rewrite !Z.mul_1_r.
      pose proof (reduce_two_ok k src out C H W (fun f i j => j + W * (i + H * f)) (fun f => C * f) act x (fun c h w => at3 (n0 N) H W x c h w) Ho Hs) as G.
      rewrite tab3_C1W, tab2_H1. cbn in G.
      erewrite tab_ext; [apply G; try lia|].
      + intros ->. destruct Hk as [(A1 & A2)|[(A1 & A2 & A3)|[(A1 & A2 & A3)|(A1 & A2 & A3)]]]; auto; congruence.
      + intros ->. destruct Hk as [(A1 & A2)|[(A1 & A2 & A3)|[(A1 & A2 & A3)|(A1 & A2 & A3)]]]; auto; congruence.
      + intros f i j Hf Hi Hj. apply RD; auto.
      + intros w Hw. cbv beta. f_equal. unfold red_cells. rewrite tab3_1HW by lia. reflexivity.
    - (* h *) rewrite !Z.mul_1_r.
      pose proof (reduce_one_ok k src out C W H (fun f i j => i + W * (j + H * f)) (fun f i => i + W * H * f) act x (fun c w h => at3 (n0 N) H W x c h w) Ho Hs) as G.
      rewrite tab3_C1W. cbn in G.
      erewrite tab2_ext; [apply G; try lia| lia|lia|].
      + intros f i j Hf Hi Hj. apply RD; auto.
      + intros h w Hh Hw. cbv beta. f_equal. unfold red_cells. rewrite tab3_1HW, tab2_H1 by lia. reflexivity.
    - (* w *) rewrite !Z.mul_1_r.
      pose proof (reduce_one_ok k src out C H W (fun f i j => j + W * (i + H * f)) (fun f i => W * (i + H * f)) act x (fun c h w => at3 (n0 N) H W x c h w) Ho Hs) as G.
      rewrite tab3_CH1. cbn in G.
      erewrite tab2_ext; [apply G; try lia| lia|lia|].
      + intros f i j Hf Hi Hj. apply RD; auto.
      + intros h w Hh Hw. cbv beta. f_equal. unfold red_cells. rewrite tab3_1HW, tab2_1W by lia. reflexivity.
    - (* none *) exfalso. destruct axes as [|a axes]; [congruence|].
      inversion Hax as [|? ? Ha _]; subst. unfold in_axes in I1, I2, I3. cbn [existsb] in I1, I2, I3.
      rewrite orb_false_iff, Z.eqb_neq in I1, I2, I3. lia.
  Qed.
End ReduceOk.

Section SoftmaxOk.
  Context (N : num).
  Notation V := (T N).
  Notation mem := (mem V).

  Definition expsum (l : list V) : V := fold_left (nadd N) (map (nexp N) l) (n0 N).

  Lemma softmax_1d_ok src out size act x :
    out <> Temp -> src <> Temp -> zlen x = size ->
    layer_ok (softmax_1d N src out size act) [(src, x)] out 0 size
      (map (fun v => act (ndiv N (nexp N v) (expsum x))) x).
  Proof.
    intros Ho Hs Hx m Hm _ Hout. apply holds_src1 in Hm. unfold softmax_1d.
    pose proof (zlen_nonneg x) as Hz. rewrite Hx in Hz.
    assert (RD : forall q, 0 <= q < size -> rd m src q = Some (nthZ (n0 N) x q)) by (intros q Hq; apply holds_rd_nthZ; [exact Hm|lia]).
    rewrite (for_pure size _ (fun j u => nadd N u (nexp N (nthZ (n0 N) x j)))); [|intros i s Hi; rewrite RD by exact Hi; reflexivity]. cbn [bind].
    assert (ES : iterZ size (fun j u => nadd N u (nexp N (nthZ (n0 N) x j))) (n0 N) = expsum x).
    { unfold expsum. transitivity (fold_left (nadd N) (map (nexp N) (tab size (nthZ (n0 N) x))) (n0 N)); [rewrite map_tab, fold_tab by lia; reflexivity|].
      rewrite <- Hx, <- tab_nthZ. reflexivity. }
    rewrite ES.
    destruct (fill_stores_aux (fun m : mem => m) (fun _ _ => True) size
      (fun j m => v <- rd m src j ;; m1 <- wr m out j (ndiv N (nexp N v) (expsum x)) ;; u <- rd m1 out j ;; wr m1 out j (act u))
      (fun j => act (ndiv N (nexp N (nthZ (n0 N) x j)) (expsum x))) out m) as (m' & E & O & Hh & _); auto.
    - intros k m' Hk O _ _ P2.
      assert (R : rd m' src k = Some (nthZ (n0 N) x k)).
      { destruct (bname_eq_dec src out) as [->|Hne]; [rewrite P2 by lia; apply RD; exact Hk|].
        destruct O as [_ O]. unfold rd. rewrite O by exact Hne. apply RD. exact Hk. }
      rewrite R. cbn [bind].
      assert (Hk' : 0 <= k < zlen (m' out)) by (rewrite (only_zlen _ _ _ _ O); lia).
      edestruct (wr_stores m' out k) as (m1 & E1 & S1); [exact Hk'|]. rewrite E1. cbn [bind].
      rewrite (rd_stored _ _ _ _ _ S1). cbn [bind].
      edestruct (wr_stores m1 out k) as (m2 & E2 & S2); [rewrite (stored_zlen _ _ _ _ _ _ S1); exact Hk'|].
      exists m2. split; [exact E2|]. split; [|exact I]. eapply stores_trans; eauto.
    - exists m'. split; [exact E|]. split; [|split].
      + assert (EX : x = tab size (nthZ (n0 N) x)) by (rewrite <- Hx; apply tab_nthZ).
        match goal with |- holds _ _ (map ?g x) => replace (map g x) with (map g (tab size (nthZ (n0 N) x))) by (rewrite <- EX; reflexivity) end.
        rewrite map_tab. exact Hh.
      + intros b. apply (only_zlen _ _ _ _ O).
      + intros b _ Hb. destruct O as [_ O]. apply O. exact Hb.
  Qed.

  Lemma softmax_sums_ok src D1 D2 R pos x cell m :
    src <> Temp -> 0 <= D1 -> 0 <= D2 -> 0 <= R -> D1 * D2 <= zlen (m Temp) -> holds m src x ->
    (forall f i j, 0 <= f < D1 -> 0 <= i < D2 -> 0 <= j < R -> rdl x (pos f i j) = Some (cell f i j)) ->
    exists m', softmax_sums N src D1 D2 R pos m = Some m' /\ only m m' Temp /\
      holds m' Temp (tab2 D1 D2 (fun f i => expsum (tab R (cell f i)))).
  Proof.
    intros Hs H1 H2 HR Ht Hm Hpos. unfold softmax_sums. apply fill2_stores; auto.
    intros f i m' Hf Hi O.
    assert (Hm' : holds m' src x) by (eapply holds_other; eauto).
    assert (Hp : 0 <= i + D2 * f < zlen (m' Temp)) by (rewrite (only_zlen _ _ _ _ O); nia).
    destruct (wr_stores m' Temp (i + D2 * f) (n0 N) Hp) as (m0 & E0 & T0). rewrite E0. cbn [bind].
    destruct (acc_loop m0 Temp (i + D2 * f) R
      (fun j m => u <- rd m Temp (i + D2 * f) ;; v <- rd m src (pos f i j) ;; wr m Temp (i + D2 * f) (nadd N u (nexp N v)))
      (fun j u => nadd N u (nexp N (cell f i j))) (n0 N)) as (m1 & E1 & T1).
    - exact HR.
    - apply T0.
    - intros j m'' u Hj O'' Ru. rewrite Ru. cbn [bind].
      assert (Hm'' : holds m'' src x).
      { eapply holds_other; [|exact Hs|exact Hm']. destruct T0 as (O0 & _). destruct O0 as [L0 Q0]. destruct O'' as [L Q]. split; [lia|]. intros b Hb. rewrite Q, Q0; auto. }
      pose proof (Hpos f i j Hf Hi Hj) as E. rewrite (holds_rd m'' src x) by (auto; eapply rdl_range; eauto). rewrite E. cbn [bind].
      apply wr_stores. eapply rdl_range; eauto.
    - exists m1. split; [exact E1|]. unfold expsum. rewrite map_tab, fold_tab by lia. eapply stores_trans; eauto.
  Qed.

  Lemma softmax_div_ok src out C H W sidx x sums d1 d2 (s : Z -> Z -> Z -> V) m :
    out <> Temp -> src <> Temp -> 0 <= C -> 0 <= H -> 0 <= W -> zlen x = C * H * W ->
    holds m src x -> holds m Temp (tab2 d1 d2 sums) -> C * H * W <= zlen (m out) ->
    (forall c h w, 0 <= c < C -> 0 <= h < H -> 0 <= w < W -> rdl (tab2 d1 d2 sums) (sidx c h w) = Some (s c h w)) ->
    exists m', softmax_div N src out C H W sidx m = Some m' /\ only m m' out /\
      holds m' out (tab3 C H W (fun c h w => ndiv N (nexp N (at3 (n0 N) H W x c h w)) (s c h w))).
  Proof.
    intros Ho Hs HC HH HW Hx Hm Ht Hout Hidx. unfold softmax_div. apply fill3; auto.
    intros f i j m' Hf Hi Hj O P1 P2.
    assert (R : rd m' src (j + W * (i + H * f)) = Some (at3 (n0 N) H W x f i j)).
    { transitivity (rd m src (j + W * (i + H * f))).
      - destruct (bname_eq_dec src out) as [->|Hne]; [apply P2; unfold idx3; lia|]. destruct O as [_ O]. unfold rd. rewrite O by exact Hne. reflexivity.
      - apply (rd_at3 (n0 N) m src x C H W); auto. }
    rewrite R. cbn [bind].
    assert (RT : rd m' Temp (sidx f i j) = Some (s f i j)).
    { pose proof (Hidx f i j Hf Hi Hj) as E. transitivity (rd m Temp (sidx f i j)).
      - destruct O as [_ O]. unfold rd. rewrite O by congruence. reflexivity.
      - rewrite (holds_rd m Temp (tab2 d1 d2 sums)); auto. eapply rdl_range; eauto. }
    rewrite RT. reflexivity.
  Qed.

  Lemma rdl_tab2 {A} H W (f : Z -> Z -> A) h w k : 0 <= h < H -> 0 <= w < W -> k = w + W * h -> rdl (tab2 H W f) k = Some (f h w).
  Proof.
    intros Hh Hw ->. unfold tab2. rewrite rdl_tab by nia. f_equal. f_equal.
    - replace (w + W * h) with (w + h * W) by ring. rewrite Z.div_add by lia. rewrite Z.div_small by lia. lia.
    - replace (w + W * h) with (w + h * W) by ring. rewrite Z_mod_plus_full, Z.mod_small by lia. reflexivity.
  Qed.

  Lemma softmax_nd_ok src out C H W axis x :
    out <> Temp -> src <> Temp -> 0 < C -> 0 < H -> 0 < W -> 1 <= axis <= 3 -> zlen x = C * H * W ->
    layer_ok (softmax_nd N src out C H W axis) [(src, x)] out (C * H * W) (C * H * W)
      (tab3 C H W (fun c h w => ndiv N (nexp N (at3 (n0 N) H W x c h w))
          (expsum (red_cells N C H W (axis =? 1) (axis =? 2) (axis =? 3) x c h w)))).
  Proof.
    intros Ho Hs HC HH HW Hax Hx m Hm Ht Hout. apply holds_src1 in Hm. unfold softmax_nd.
    assert (RD : forall c h w p, 0 <= c < C -> 0 <= h < H -> 0 <= w < W -> p = idx3 H W c h w -> rdl x p = Some (at3 (n0 N) H W x c h w)).
    { intros c h w p Hc Hh Hw ->. eapply rdl_at3; eauto. }
    assert (FIN : forall D1 D2 R pos cell sidx s, 0 <= D1 -> 0 <= D2 -> 0 <= R -> D1 * D2 <= C * H * W ->
      (forall f i j, 0 <= f < D1 -> 0 <= i < D2 -> 0 <= j < R -> rdl x (pos f i j) = Some (cell f i j)) ->
      (forall c h w, 0 <= c < C -> 0 <= h < H -> 0 <= w < W -> rdl (tab2 D1 D2 (fun f i => expsum (tab R (cell f i)))) (sidx c h w) = Some (s c h w)) ->
      exists m', (m1 <- softmax_sums N src D1 D2 R pos m ;; softmax_div N src out C H W sidx m1) = Some m' /\
        holds m' out (tab3 C H W (fun c h w => ndiv N (nexp N (at3 (n0 N) H W x c h w)) (s c h w))) /\
        (forall b, zlen (m' b) = zlen (m b)) /\ (forall b, b <> Temp -> b <> out -> m' b = m b)).
    { intros D1 D2 R pos cell sidx s H1 H2 HR HL Hpos Hidx.
      destruct (softmax_sums_ok src D1 D2 R pos x cell m Hs H1 H2 HR ltac:(lia) Hm Hpos) as (m1 & E1 & O1 & T1).
      rewrite E1. cbn [bind].
      destruct (softmax_div_ok src out C H W sidx x (fun f i => expsum (tab R (cell f i))) D1 D2 s m1 Ho Hs ltac:(lia) ltac:(lia) ltac:(lia) Hx) as (m2 & E2 & O2 & T2); auto.
      - eapply holds_other; eauto.
      - rewrite (only_zlen _ _ _ _ O1). exact Hout.
      - exists m2. split; [exact E2|]. split; [exact T2|]. split.
        + intros b. rewrite (only_zlen _ _ _ _ O2). apply (only_zlen _ _ _ _ O1).
        + intros b B1 B2. destruct O2 as [_ O2]. destruct O1 as [_ O1]. rewrite O2, O1; auto. }
    destruct (Z.eqb_spec axis 1) as [->|A1]; [|destruct (Z.eqb_spec axis 2) as [->|A2]].
    - cbn [Z.eqb Pos.eqb]. apply (FIN H W C (fun f i j => i + W * (f + H * j)) (fun f i j => at3 (n0 N) H W x j f i)); try nia.
      + intros f i j Hf Hi Hj. apply RD; auto.
      + intros c h w Hc Hh Hw. rewrite (rdl_tab2 H W _ h w) by (auto; lia). f_equal. unfold red_cells. rewrite tab3_CH1, tab2_H1. reflexivity.
    - cbn [Z.eqb Pos.eqb]. apply (FIN C W H (fun f i j => i + W * (j + H * f)) (fun f i j => at3 (n0 N) H W x f j i)); try nia.
      + intros f i j Hf Hi Hj. apply RD; auto.
      + intros c h w Hc Hh Hw. rewrite (rdl_tab2 C W _ c w) by (auto; lia). f_equal. unfold red_cells. rewrite tab3_1HW, tab2_H1 by lia. reflexivity.
    - replace (axis =? 3) with true by (symmetry; apply Z.eqb_eq; lia).
      apply (FIN C H W (fun f i j => j + W * (i + H * f)) (fun f i j => at3 (n0 N) H W x f i j)); try nia.
      + intros f i j Hf Hi Hj. apply RD; auto.
      + intros c h w Hc Hh Hw. rewrite (rdl_tab2 C H _ c h) by (auto; lia). f_equal. unfold red_cells. rewrite tab3_1HW, tab2_1W by lia. reflexivity.
  Qed.
End SoftmaxOk.
