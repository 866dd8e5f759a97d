(** * Properties C29 (Softmax) and C30 (Reduce layers).
    [red_cells N C H W rc rh rw x c h w] (Reduce.v) lists, in row-major order,
    the cells of [x] whose coordinates agree with (c,h,w) on the axes that are
    not reduced ([rc], [rh], [rw]: is the axis reduced?). *)
From Coq Require Import ZArith List Lia Bool Reals Lra.
Import ListNotations.
Open Scope Z_scope.
From Verif Require Import CMem Tensor Num NumInst RealInst Activation Pooling PoolingProofs Reduce ReduceProofs PropertiesMovement.

(** ** C29. *)
(** The generated code and Python agree, for every shape and axis, when no
    activation is fused. *)
Theorem C29_softmax : forall (N : num) src out C H W axis x,
  out <> Temp -> src <> Temp -> 0 < C -> 0 < H -> 0 < W -> 1 <= axis <= 3 -> zlen x = C * H * W ->
  layer_ok (softmax_c N src out C H W axis (fun v => v)) [(src, x)] out (C * H * W) (C * H * W) (softmax_py N C H W axis x).
Proof.
  intros N src out C H W axis x Ho Hs HC HH HW Hax Hx. unfold softmax_c, softmax_py.
  destruct (one_dimension C H W).
  - pose proof (softmax_1d_ok N src out (C * H * W) (fun v => v) x Ho Hs Hx) as G. unfold expsum in G. cbv zeta. rewrite map_map.
    intros m Hm Ht Hout. apply G; auto. nia.
  - apply softmax_nd_ok; auto.
Qed.
Print Assumptions C29_softmax.

(** In the reals the result is a probability distribution along the axis. *)
Definition Rsum (l : list R) : R := fold_left Rplus l 0%R.
Definition along (C H W axis : Z) (y : list R) (c h w : Z) : list R :=
  red_cells Rnum C H W (axis =? 1) (axis =? 2) (axis =? 3) y c h w.

Lemma fold_Rplus l : forall a, fold_left Rplus l a = (a + Rsum l)%R.
Proof.
  unfold Rsum. induction l as [|v l IH]; intros a; cbn [fold_left]; [lra|].
  rewrite (IH (a + v)%R), (IH (0 + v)%R). lra.
Qed.
Lemma Rsum_cons v l : Rsum (v :: l) = (v + Rsum l)%R.
Proof. unfold Rsum. cbn [fold_left]. rewrite fold_Rplus. unfold Rsum. lra. Qed.
Lemma Rsum_exp_pos l : l <> [] -> (0 < Rsum (map exp l))%R.
Proof.
  induction l as [|v l IH]; [congruence|]. intros _. cbn [map]. rewrite Rsum_cons. pose proof (exp_pos v).
  destruct l; [cbn [map]; unfold Rsum; cbn; lra|]. specialize (IH ltac:(discriminate)). lra.
Qed.
Lemma Rsum_div l s : Rsum (map (fun v => exp v / s)%R l) = (Rsum (map exp l) / s)%R.
Proof.
  induction l as [|v l IH]; [unfold Rsum; cbn; unfold Rdiv; ring|].
  cbn [map]. rewrite !Rsum_cons, IH. unfold Rdiv. ring.
Qed.

Lemma red_cells_nonempty N C H W b1 b2 b3 x c h w : 0 < C -> 0 < H -> 0 < W -> red_cells N C H W b1 b2 b3 x c h w <> [].
Proof.
  intros HC HH HW E. apply (f_equal zlen) in E. unfold red_cells in E.
  rewrite zlen_tab3 in E by (destruct b1, b2, b3; lia). rewrite zlen_nil in E. destruct b1, b2, b3; nia.
Qed.

(** The cells along an axis do not depend on the coordinate of that axis. *)
Lemma red_cells_indep N C H W b1 b2 b3 x c h w c' h' w' :
  (b1 = false -> c = c') -> (b2 = false -> h = h') -> (b3 = false -> w = w') ->
  red_cells N C H W b1 b2 b3 x c h w = red_cells N C H W b1 b2 b3 x c' h' w'.
Proof.
  intros E1 E2 E3. unfold red_cells.
  destruct b1; [|rewrite (E1 eq_refl)]; (destruct b2; [|rewrite (E2 eq_refl)]); (destruct b3; [|rewrite (E3 eq_refl)]); reflexivity.
Qed.

Lemma cells_of_quotients C H W b1 b2 b3 (x : list R) c h w :
  0 < C -> 0 < H -> 0 < W -> 0 <= c < C -> 0 <= h < H -> 0 <= w < W ->
  red_cells Rnum C H W b1 b2 b3 (tab3 C H W (fun c h w =>
      (exp (at3 0%R H W x c h w) / Rsum (map exp (red_cells Rnum C H W b1 b2 b3 x c h w)))%R)) c h w
  = map (fun v => (exp v / Rsum (map exp (red_cells Rnum C H W b1 b2 b3 x c h w)))%R) (red_cells Rnum C H W b1 b2 b3 x c h w).
Proof.
  intros HC HH HW Hc Hh Hw. unfold red_cells at 1. unfold red_cells at 3. rewrite map_tab3. apply tab3_ext.
  - destruct b1; lia. - destruct b2; lia. - destruct b3; lia.
  - intros a b e Ha Hb He. cbv beta. change (n0 Rnum) with 0%R. rewrite at3_tab3.
    + rewrite (red_cells_indep Rnum C H W b1 b2 b3 x _ _ _ c h w); [reflexivity|intros ->; reflexivity..].
    + destruct b1; lia.
    + destruct b2; lia.
    + destruct b3; lia.
Qed.

Theorem C29_distribution : forall C H W axis (x : list R) c h w,
  0 < C -> 0 < H -> 0 < W -> 1 <= axis <= 3 -> zlen x = C * H * W ->
  one_dimension C H W = false -> 0 <= c < C -> 0 <= h < H -> 0 <= w < W ->
  let y := softmax_py Rnum C H W axis x in
  (0 < at3 0 H W y c h w)%R /\ Rsum (along C H W axis y c h w) = 1%R.
Proof.
  intros C H W axis x c h w HC HH HW Hax Hx One Hc Hh Hw y.
  set (S := fun c h w => Rsum (map exp (along C H W axis x c h w))).
  assert (Ey : y = tab3 C H W (fun c h w => (exp (at3 0%R H W x c h w) / S c h w)%R)).
  { unfold y, softmax_py. rewrite One. reflexivity. }
  assert (SP : (0 < S c h w)%R) by (unfold S, along; apply Rsum_exp_pos, (red_cells_nonempty Rnum); assumption).
  split.
  - rewrite Ey, at3_tab3 by assumption. apply Rdiv_lt_0_compat; [apply exp_pos|exact SP].
  - rewrite Ey. unfold along, S, along. rewrite cells_of_quotients by assumption. rewrite Rsum_div.
    unfold Rdiv. apply Rinv_r. unfold S, along in SP. lra.
Qed.
Print Assumptions C29_distribution.

(** The flat case, when the requested axis is the only one longer than one. *)
Theorem C29_distribution_flat : forall C H W axis (x : list R),
  0 < C -> 0 < H -> 0 < W -> zlen x = C * H * W -> one_dimension C H W = true ->
  let y := softmax_py Rnum C H W axis x in
  Forall (fun v => 0 < v)%R y /\ Rsum y = 1%R.
Proof.
  intros C H W axis x HC HH HW Hx One y.
  assert (Ey : y = map (fun v => (exp v / Rsum (map exp x))%R) x) by (unfold y, softmax_py; rewrite One; cbv zeta; rewrite map_map; reflexivity).
  assert (NE : x <> []) by (intros ->; rewrite zlen_nil in Hx; nia).
  pose proof (Rsum_exp_pos x NE) as SP. rewrite Ey. split.
  - apply Forall_map, Forall_forall. intros v _. apply Rdiv_lt_0_compat; [apply exp_pos|exact SP].
  - rewrite Rsum_div. unfold Rdiv. apply Rinv_r. lra.
Qed.
Print Assumptions C29_distribution_flat.

Example C29_example :
  one_dimension 2 2 2 = false /\ one_dimension 1 1 10 = true /\ one_dimension 3 1 1 = true /\
  softmax_py Rnum 2 2 1 1 [0; 0; 0; 0]%R = [1 / (0 + 1 + 1); 1 / (0 + 1 + 1); 1 / (0 + 1 + 1); 1 / (0 + 1 + 1)]%R.
Proof.
  split; [reflexivity|]. split; [reflexivity|]. split; [reflexivity|].
  cbv -[Rplus Rdiv exp IZR]. rewrite !exp_0. reflexivity.
Qed.

(** The axis is ignored when the tensor is flat: with shape (2,1,1) and axis 2
    (rows, one of them) each output must be 1; the layer returns 1/2. *)
Theorem C29_axis_ignored_refuted : exists C H W axis (x : list R),
  zlen x = C * H * W /\ 1 <= axis <= 3 /\ one_dimension C H W = true /\
  Rsum (along C H W axis (softmax_py Rnum C H W axis x) 0 0 0) <> 1%R.
Proof.
  exists 2, 1, 1, 2, [0; 0]%R. split; [reflexivity|]. split; [lia|]. split; [reflexivity|].
  cbv -[Rplus Rdiv exp IZR]. rewrite !exp_0. lra.
Qed.
Print Assumptions C29_axis_ignored_refuted.

(** ** C30.  Every kind on one axis, on all axes, and sum / mean / product on
    two axes: [reduce_supported] (ReduceProofs.v). *)
Theorem C30_reduce : forall (N : num) k src out C H W axes noop act x,
  out <> Temp -> src <> Temp -> 0 < C -> 0 < H -> 0 < W -> zlen x = C * H * W ->
  reduce_supported k axes noop ->
  let n := red_dim 1 C axes noop * red_dim 2 H axes noop * red_dim 3 W axes noop in
  layer_ok (reduce_c N k src out C H W axes noop act) [(src, x)] out n n (map act (reduce_py N k C H W axes noop x)).
Proof. exact reduce_ok. Qed.
Print Assumptions C30_reduce.

(** What [reduce_py] computes, cell by cell. *)
Theorem C30_reduce_cells : forall (N : num) k C H W axes noop x c h w,
  0 < C -> 0 < H -> 0 < W -> zlen x = C * H * W -> axes <> [] ->
  0 <= c < (if in_axes 1 axes then 1 else C) -> 0 <= h < (if in_axes 2 axes then 1 else H) -> 0 <= w < (if in_axes 3 axes then 1 else W) ->
  at3 (n0 N) (if in_axes 2 axes then 1 else H) (if in_axes 3 axes then 1 else W) (reduce_py N k C H W axes noop x) c h w
  = red_value N k (red_cells N C H W (in_axes 1 axes) (in_axes 2 axes) (in_axes 3 axes) x c h w).
Proof.
  intros N k C H W axes noop x c h w HC HH HW Hx NE Hc Hh Hw. unfold reduce_py.
  destruct axes as [|a axes]; [congruence|]. cbn [empty_axes andb]. unfold red_dim. cbn [empty_axes andb]. rewrite !orb_false_r.
  rewrite at3_tab3 by assumption. reflexivity.
Qed.
Print Assumptions C30_reduce_cells.

(** [red_value] of Max / Min is the largest / smallest element. *)
Theorem C30_max_min : forall (N : num) (l : list (T N)), order_laws N -> l <> [] ->
  (In (red_value N RMax l) l /\ forall v, In v l -> nlt N (red_value N RMax l) v = false) /\
  (In (red_value N RMin l) l /\ forall v, In v l -> nlt N v (red_value N RMin l) = false).
Proof.
  intros N l L NE. split.
  - pose proof (np_amax_spec N (n0 N) l L NE) as G. destruct l; [congruence|]. exact G.
  - destruct l as [|u l]; [congruence|]. clear NE. cbn [red_value]. revert u. induction l as [|w l IH]; intros u.
    + cbn. split; [auto|]. intros v [->|[]]. apply (lt_irrefl N L).
    + cbn [fold_left]. destruct (IH (np_minimum N u w)) as (I & M).
      assert (LE : forall a b c, nlt N b a = false -> nlt N c b = false -> nlt N c a = false).
      { intros a b c Hba Hcb. destruct (nlt N c a) eqn:E; [|reflexivity]. exfalso.
        destruct (nlt N a b) eqn:Eab.
        - rewrite (lt_trans N L c a b E Eab) in Hcb. discriminate.
        - assert (a = b) by (apply (lt_total N L); assumption). subst. congruence. }
      assert (MU : nlt N u (np_minimum N u w) = false /\ nlt N w (np_minimum N u w) = false).
      { unfold np_minimum. destruct (nlt N w u) eqn:E; split; try apply (lt_irrefl N L); auto.
        destruct (nlt N u w) eqn:E2; [|reflexivity]. pose proof (lt_trans N L _ _ _ E E2). rewrite (lt_irrefl N L) in H. discriminate. }
      split.
      * destruct I as [I|I]; [|right; right; exact I].
        rewrite <- I. unfold np_minimum. destruct (nlt N w u); [right; left|left]; reflexivity.
      * intros v Hv. assert (Q : nlt N (np_minimum N u w) (fold_left (np_minimum N) l (np_minimum N u w)) = false) by (apply M; left; reflexivity).
        destruct Hv as [<-|[<-|Hv]].
        -- eapply LE; [exact Q|apply MU].
        -- eapply LE; [exact Q|apply MU].
        -- apply M. right. exact Hv.
Qed.
Print Assumptions C30_max_min.

Definition red_mem (x : list Z) (n : nat) : mem Z := mem_of [(Out 0, x); (Out 1, repeat 0 n); (Temp, repeat 0 n)].
Example C30_example :
  reduce_supported RMax [2] false /\ reduce_supported RSum [1; 3] false /\ reduce_supported RMin [] false /\
  result_of (reduce_c Znum RMax (Out 0) (Out 0) 2 3 2 [2] false (fun v => v) (red_mem (ramp 12) 12)) (Out 0) 4 = Some [4; 5; 10; 11] /\
  result_of (reduce_c Znum RSum (Out 0) (Out 1) 2 3 2 [1; 3] false (fun v => v) (red_mem (ramp 12) 12)) (Out 1) 3 = Some [14; 22; 30] /\
  result_of (reduce_c Znum RMin (Out 0) (Out 1) 2 3 2 [] false (fun v => v) (red_mem (map Z.opp (ramp 12)) 12)) (Out 1) 1 = Some [-11] /\
  result_of (reduce_c Znum RMean (Out 0) (Out 1) 2 3 2 [2; 3] false (fun v => v) (red_mem (map (Z.mul 6) (ramp 12)) 12)) (Out 1) 2 = Some [15; 51].
Proof.
  split; [|split; [|split]].
  - split; [repeat constructor; lia|]. split; [discriminate|]. intros _. right. right. left. repeat split.
  - split; [repeat constructor; lia|]. split; [discriminate|]. intros [?|?]; discriminate.
  - split; [constructor|]. split; [reflexivity|]. intros _. left. split; reflexivity.
  - repeat split; vm_compute; reflexivity.
Qed.

(** Max (Min) over two axes: the code compares the layer's own output array
    and starts from an unrelated cell.  Wrong when the arrays differ ... *)
Theorem C30_two_axes_max_refuted : exists (x : list Z),
  zlen x = 1 * 2 * 2 /\
  result_of (reduce_c Znum RMax (Out 0) (Out 1) 1 2 2 [2; 3] false (fun v => v) (red_mem x 4)) (Out 1) 1 = Some [1] /\
  reduce_py Znum RMax 1 2 2 [2; 3] false x = [4].
Proof. exists [1; 2; 3; 4]. repeat split. Qed.
Print Assumptions C30_two_axes_max_refuted.
(** ... and also when the layer reuses its predecessor's array (each pair of axes). *)
Theorem C30_two_axes_max_in_place_refuted :
  result_of (reduce_c Znum RMax (Out 0) (Out 0) 1 2 2 [1; 2] false (fun v => v) (red_mem [1; 2; 4; 3] 4)) (Out 0) 2 = Some [4; 4] /\
  reduce_py Znum RMax 1 2 2 [1; 2] false [1; 2; 4; 3] = [4; 3] /\
  result_of (reduce_c Znum RMin (Out 0) (Out 0) 2 2 1 [1; 3] false (fun v => v) (red_mem [5; 6; 1; 7] 4)) (Out 0) 2 = Some [1; 1] /\
  reduce_py Znum RMin 2 2 1 [1; 3] false [5; 6; 1; 7] = [1; 6] /\
  result_of (reduce_c Znum RMax (Out 0) (Out 0) 2 2 2 [2; 3] false (fun v => v) (red_mem [1; 2; 9; 4; 5; 6; 7; 8] 8)) (Out 0) 2 = Some [9; 9] /\
  reduce_py Znum RMax 2 2 2 [2; 3] false [1; 2; 9; 4; 5; 6; 7; 8] = [9; 8].
Proof. repeat split. Qed.
Print Assumptions C30_two_axes_max_in_place_refuted.

(** Reading outside the input array is possible too: one row of four columns. *)
Theorem C30_two_axes_max_out_of_bounds_refuted :
  reduce_c Znum RMax (Out 0) (Out 1) 1 1 4 [1; 2] false (fun v => v) (red_mem [1; 2; 3; 4] 4) = None.
Proof. reflexivity. Qed.
Print Assumptions C30_two_axes_max_out_of_bounds_refuted.

(** With an empty tuple of axes and noop_with_empty_axes the layer must copy
    its input; the generated code never reads it. *)
Theorem C30_noop_refuted : exists (x : list Z),
  result_of (reduce_c Znum RSum (Out 0) (Out 1) 1 1 2 [] true (fun v => v) (red_mem x 2)) (Out 1) 2 = Some [0; 0] /\
  reduce_py Znum RSum 1 1 2 [] true x = x /\ x <> [0; 0].
Proof. exists [1; 2]. repeat split. discriminate. Qed.
Print Assumptions C30_noop_refuted.

(** Axis 0 (the batch axis, of length one) is accepted: numpy returns the input
    unchanged, the generated code reduces everything to one cell. *)
Theorem C30_batch_axis_refuted : exists (x : list Z),
  result_of (reduce_c Znum RSum (Out 0) (Out 1) 1 1 2 [0] false (fun v => v) (red_mem x 2)) (Out 1) 2 = Some [3; 0] /\
  reduce_py Znum RSum 1 1 2 [0] false x = [1; 2].
Proof. exists [1; 2]. repeat split. Qed.
Print Assumptions C30_batch_axis_refuted.
