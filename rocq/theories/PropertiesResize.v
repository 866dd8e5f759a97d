(** * Properties C31 (nearest-neighbour resize) and C51 (linear and cubic resize).
    The documentation is ONNX's Resize operator: [documented] is its coordinate
    transformation, [rounds] its rounding modes.  Coordinates are exact. *)
From Coq Require Import ZArith List Lia Bool QArith Qround Lqa.
Import ListNotations.
From Verif Require Import CMem Tensor Num NumInst Movement Resize ResizeProofs PropertiesMovement.
Open Scope Z_scope.

Definition documented (md : cmode) (scale : Q) (isize osize i : Z) : Q :=
  match md with
  | HalfPixel => (inject_Z i + (1 # 2)) / scale - (1 # 2)
  | PytorchHalfPixel => if 1 <? osize then (inject_Z i + (1 # 2)) / scale - (1 # 2) else 0
  | AlignCorners => inject_Z i * inject_Z (isize - 1) / inject_Z (osize - 1)
  | Asymmetric => inject_Z i / scale
  end%Q.

(** [k] is [x] rounded down, up, to the nearest with ties down, with ties up. *)
Definition rounds (nm : nmode) (x : Q) (k : Z) : Prop :=
  match nm with
  | NFloor => inject_Z k <= x < inject_Z k + 1
  | NCeil => inject_Z k - 1 < x <= inject_Z k
  | RoundPreferFloor => x - (1 # 2) <= inject_Z k < x + (1 # 2)
  | RoundPreferCeil => x - (1 # 2) < inject_Z k <= x + (1 # 2)
  end%Q.

Lemma inject_lt a b : a < b -> (inject_Z a + 1 <= inject_Z b)%Q.
Proof. intros H. change 1%Q with (inject_Z 1). rewrite <- inject_Z_plus, <- Zle_Qle. lia. Qed.

Lemma rounds_unique nm x y k l : (x == y)%Q -> rounds nm x k -> rounds nm y l -> k = l.
Proof.
  intros E. destruct nm; cbn [rounds]; intros [A B] [C D];
    (destruct (Z.lt_trichotomy k l) as [H|[H|H]]; [apply inject_lt in H; exfalso; lra|exact H|apply inject_lt in H; exfalso; lra]).
Qed.

Lemma nearest_rounds nm x : rounds nm x (nearest nm x).
Proof.
  assert (F : forall y, (inject_Z (Qfloor y) <= y < inject_Z (Qfloor y) + 1)%Q).
  { intros y. split; [apply Qfloor_le|]. change 1%Q with (inject_Z 1). rewrite <- inject_Z_plus. apply Qlt_floor. }
  assert (C : forall y, (inject_Z (Qceiling y) - 1 < y <= inject_Z (Qceiling y))%Q).
  { intros y. split; [|apply Qle_ceiling]. rewrite <- inject_sub1. apply Qceiling_lt. }
  destruct nm; cbn [nearest rounds].
  - apply F.
  - apply C.
  - pose proof (C (2 * x)%Q) as [C1 C2]. set (c := Qceiling (2 * x)) in *.
    pose proof (F (inject_Z c / 2)%Q) as [F1 F2]. rewrite halve_floor in *.
    assert (E : (2 * (inject_Z c / 2) == inject_Z c)%Q) by field.
    assert (G : (inject_Z c <= 2 * inject_Z (c / 2) + 1)%Q).
    { change 2%Q with (inject_Z 2). change 1%Q with (inject_Z 1). rewrite <- inject_Z_mult, <- inject_Z_plus, <- Zle_Qle.
      pose proof (Z.div_mod c 2 ltac:(lia)). pose proof (Z.mod_pos_bound c 2 ltac:(lia)). lia. }
    split; lra.
  - pose proof (F (2 * x)%Q) as [F1 F2]. set (c := Qfloor (2 * x)) in *.
    pose proof (C (inject_Z c / 2)%Q) as [C1 C2]. rewrite halve_ceil in *.
    assert (E : (2 * (inject_Z c / 2) == inject_Z c)%Q) by field.
    set (k := - (- c / 2)) in *.
    assert (G : (2 * inject_Z k - 1 <= inject_Z c)%Q).
    { change 2%Q with (inject_Z 2). rewrite <- inject_Z_mult, <- inject_sub1, <- Zle_Qle. unfold k.
      pose proof (Z.div_mod (- c) 2 ltac:(lia)). pose proof (Z.mod_pos_bound (- c) 2 ltac:(lia)). lia. }
    split; lra.
Qed.

Lemma coord_py_documented md scale isize osize i : (md = AlignCorners -> osize <> 1) ->
  exists u, coord_py md scale isize osize i = Some u /\ (u == documented md scale isize osize i)%Q.
Proof.
  intros H. destruct md; cbn [coord_py documented].
  - eexists. split; [reflexivity|reflexivity].
  - destruct (1 <? osize); eexists; split; reflexivity.
  - destruct (Z.eqb_spec (osize - 1) 0); [specialize (H eq_refl); lia|]. eexists. split; [reflexivity|].
    rewrite inject_Z_mult. reflexivity.
  - eexists. split; reflexivity.
Qed.

(** One axis: the index used by the generated code is the documented one, the
    one used by Python, and lies inside the input. *)
Lemma axis_ok md nm scale isize osize :
  (0 < scale)%Q -> osize = resized scale isize -> always_inside md nm scale ->
  (md = AlignCorners -> nm = NFloor /\ osize <> 1) ->
  exists k : Z -> Z, forall i, 0 <= i < osize ->
    rounds nm (documented md scale isize osize i) (k i) /\ 0 <= k i < isize /\
    (exists u, coord_c md scale isize osize i = Some u /\ nearest nm u = k i) /\
    (exists u, coord_py md scale isize osize i = Some u /\ nearest nm u = k i).
Proof.
  intros Hs Ho A HA. exists (fun i => nearest nm (documented md scale isize osize i)). intros i Hi.
  assert (E : forall u w, (u == w)%Q -> nearest nm u = nearest nm w).
  { intros u w Euw. eapply rounds_unique; [exact Euw|apply nearest_rounds|apply nearest_rounds]. }
  destruct (coord_py_documented md scale isize osize i) as (u & Eu & Du); [intros Em; apply HA; exact Em|].
  split; [apply nearest_rounds|].
  assert (G : 0 <= nearest nm u < isize /\ exists v, coord_c md scale isize osize i = Some v /\ nearest nm v = nearest nm u).
  { destruct md; cbn [coord_c coord_py] in *.
    - injection Eu as <-. split; [eapply half_pixel_inside; eauto|eauto].
    - destruct (Z.ltb_spec 1 osize) as [G|G].
      + injection Eu as <-. split; [eapply half_pixel_inside; eauto|eauto].
      + injection Eu as <-. split; [|eauto]. change 0%Q with (inject_Z 0). rewrite nearest_int.
        pose proof (isize_pos scale isize osize i Hs Ho Hi). lia.
    - destruct (HA eq_refl) as [-> H1]. destruct (Z.eqb_spec (osize - 1) 0); [lia|]. injection Eu as <-.
      pose proof (isize_pos scale isize osize i Hs Ho Hi) as Hp.
      pose proof (align_corners_inside scale isize osize i Hs Ho Hi NFloor H1) as R. rewrite nearest_int in R.
      assert (Q : nearest NFloor (inject_Z (i * (isize - 1)) / inject_Z (osize - 1))%Q = Z.quot (i * (isize - 1)) (osize - 1)).
      { eapply rounds_unique; [reflexivity|apply nearest_rounds|]. cbn [rounds].
        set (c := i * (isize - 1)). set (o := osize - 1). assert (0 < o) by lia. assert (0 <= c) by nia.
        rewrite Z.quot_div_nonneg by lia. pose proof (Z.div_mod c o ltac:(lia)). pose proof (Z.mod_pos_bound c o ltac:(lia)).
        assert (P : (0 < inject_Z o)%Q) by (change 0%Q with (inject_Z 0); rewrite <- Zlt_Qlt; lia).
        change 1%Q with (inject_Z 1). rewrite <- inject_Z_plus.
        split; [apply Qle_shift_div_l; [exact P|]; rewrite <- inject_Z_mult, <- Zle_Qle; lia
               |apply Qlt_shift_div_r; [exact P|]; rewrite <- inject_Z_mult, <- Zlt_Qlt; lia]. }
      rewrite Q. split; [exact R|]. eexists. split; [reflexivity|]. apply nearest_int.
    - injection Eu as <-. split; [eapply asymmetric_inside; eauto|eauto]. }
  destruct G as (R & v & Ev & Nv). rewrite <- (E _ _ Du). split; [exact R|]. split; [exists v; auto|exists u; auto].
Qed.

Definition resize_wf (p : rparams) : Prop :=
  0 <= rC p /\ (0 < rsh p)%Q /\ (0 < rsw p)%Q /\ rOH p = resized (rsh p) (rH p) /\ rOW p = resized (rsw p) (rW p) /\
  0 <= rOH p /\ 0 <= rOW p.

(** C31: in the mode combinations listed in [always_inside], every cell of the
    output is the activation of the input element at the documented position. *)
Theorem C31_nearest_partial : forall (N : num) (d : T N) nm src out p act x,
  out <> Temp -> src <> Temp -> resize_wf p -> zlen x = rC p * rH p * rW p ->
  always_inside (rmode p) nm (rsh p) -> always_inside (rmode p) nm (rsw p) ->
  (rmode p = AlignCorners -> nm = NFloor /\ rOH p <> 1 /\ rOW p <> 1) ->
  exists kx ky,
    (forall i, 0 <= i < rOH p -> rounds nm (documented (rmode p) (rsh p) (rH p) (rOH p) i) (kx i) /\ 0 <= kx i < rH p) /\
    (forall j, 0 <= j < rOW p -> rounds nm (documented (rmode p) (rsw p) (rW p) (rOW p) j) (ky j) /\ 0 <= ky j < rW p) /\
    (let y := tab3 (rC p) (rOH p) (rOW p) (fun f i j => at3 d (rH p) (rW p) x f (kx i) (ky j)) in
     let n := rC p * rOH p * rOW p in
     nearest_py N nm p x = Some y /\
     layer_ok (nearest_c N nm src out p act) [(src, x)] out n n (map act y)).
Proof.
  intros N d nm src out p act x Ho Hs (HC & H1 & H2 & H3 & H4 & H5 & H6) Hx A1 A2 HA.
  destruct (axis_ok (rmode p) nm (rsh p) (rH p) (rOH p)) as (kx & Kx); auto; [intros E; destruct (HA E) as (? & ? & ?); auto|].
  destruct (axis_ok (rmode p) nm (rsw p) (rW p) (rOW p)) as (ky & Ky); auto; [intros E; destruct (HA E) as (? & ? & ?); auto|].
  exists kx, ky. split; [intros i Hi; destruct (Kx i Hi) as (? & ? & _); auto|].
  split; [intros j Hj; destruct (Ky j Hj) as (? & ? & _); auto|]. cbv zeta. split.
  - apply nearest_py_ok; auto; [intros i Hi; destruct (Kx i Hi) as (_ & R & _ & u & E1 & E2)|intros j Hj; destruct (Ky j Hj) as (_ & R & _ & u & E1 & E2)];
      exists u; auto.
  - rewrite map_tab3. apply nearest_c_ok; auto; [intros i Hi; destruct (Kx i Hi) as (_ & R & (u & E1 & E2) & _)|intros j Hj; destruct (Ky j Hj) as (_ & R & (u & E1 & E2) & _)];
      exists u; auto.
Qed.
Print Assumptions C31_nearest_partial.

(** Non-vacuity: 2x3 -> 4x4 with scales 2 and 4/3, half_pixel, round_prefer_floor. *)
Definition rmem (x : list Z) (n : nat) : mem Z := mem_of [(Out 0, x); (Out 1, repeat 0 n); (Temp, repeat 0 n)].
Example C31_example :
  let p := mkR 1 2 3 4 4 2 (4 # 3) HalfPixel in
  resize_wf p /\ always_inside (rmode p) RoundPreferFloor (rsh p) /\ always_inside (rmode p) RoundPreferFloor (rsw p) /\
  result_of (nearest_c Znum RoundPreferFloor (Out 0) (Out 1) p (fun v => v) (rmem (ramp 6) 16)) (Out 1) 16
   = Some [0; 1; 1; 2; 0; 1; 1; 2; 3; 4; 4; 5; 3; 4; 4; 5] /\
  nearest_py Znum RoundPreferFloor p (ramp 6) = Some [0; 1; 1; 2; 0; 1; 1; 2; 3; 4; 4; 5; 3; 4; 4; 5].
Proof. cbv zeta. split; [repeat split; cbn; lia|]. repeat split; vm_compute; reflexivity. Qed.

(** The property in full is false: the code does not clamp the index. *)
(** 1. half_pixel with floor, any enlargement: the first row is read at index -1. *)
Theorem C31_half_pixel_floor_refuted : forall scale isize osize, (1 < scale)%Q ->
  exists u, coord_c HalfPixel scale isize osize 0 = Some u /\ nearest NFloor u = -1.
Proof.
  intros scale isize osize Hs. eexists. split; [reflexivity|]. change (inject_Z 0) with 0%Q.
  eapply rounds_unique; [reflexivity|apply nearest_rounds|]. cbn [rounds].
  assert (0 < (0 + (1 # 2)) / scale)%Q by (apply Qlt_shift_div_l; lra).
  assert ((0 + (1 # 2)) / scale < 1 # 2)%Q by (apply Qlt_shift_div_r; lra).
  change (inject_Z (-1)) with (-1)%Q. split; lra.
Qed.
Print Assumptions C31_half_pixel_floor_refuted.

(** ... so that the generated code leaves its input (here: a negative index),
    while Python silently takes the last row and column. *)
Theorem C31_half_pixel_floor_fault_refuted : exists p x,
  resize_wf p /\ zlen x = rC p * rH p * rW p /\
  nearest_c Znum NFloor (Out 0) (Out 1) p (fun v => v) (rmem x 16) = None /\
  nearest_py Znum NFloor p x = Some [3; 2; 2; 3; 1; 0; 0; 1; 1; 0; 0; 1; 3; 2; 2; 3].
Proof. exists (mkR 1 2 2 4 4 2 2 HalfPixel), (ramp 4). split; [repeat split; cbn; lia|]. repeat split. Qed.
Print Assumptions C31_half_pixel_floor_fault_refuted.

(** 2. asymmetric with round_prefer_floor (ONNX's default rounding) and a factor
       above 2: the index equals the size of the input; Python raises. *)
Theorem C31_asymmetric_refuted : exists p x,
  resize_wf p /\ zlen x = rC p * rH p * rW p /\
  nearest_c Znum RoundPreferFloor (Out 0) (Out 1) p (fun v => v) (rmem x 12) = None /\
  nearest_py Znum RoundPreferFloor p x = None.
Proof. exists (mkR 1 2 2 6 2 3 1 Asymmetric), (ramp 4). split; [repeat split; cbn; lia|]. repeat split. Qed.
Print Assumptions C31_asymmetric_refuted.

(** 3. align_corners with another rounding than floor: the index stays inside
       but C's integer division makes it the floor. *)
Theorem C31_align_corners_inside : forall scale isize osize i nm,
  (0 < scale)%Q -> osize = resized scale isize -> 0 <= i < osize -> osize <> 1 ->
  exists u, coord_c AlignCorners scale isize osize i = Some u /\ 0 <= nearest nm u < isize.
Proof.
  intros scale isize osize i nm Hs Ho Hi H1. cbn [coord_c]. destruct (Z.eqb_spec (osize - 1) 0); [lia|].
  eexists. split; [reflexivity|]. eapply align_corners_inside; eauto.
Qed.
Print Assumptions C31_align_corners_inside.
Theorem C31_align_corners_refuted : exists p x,
  resize_wf p /\ zlen x = rC p * rH p * rW p /\ rmode p = AlignCorners /\
  result_of (nearest_c Znum RoundPreferFloor (Out 0) (Out 1) p (fun v => v) (rmem x 8)) (Out 1) 8 = Some [0; 0; 1; 2; 3; 3; 4; 5] /\
  nearest_py Znum RoundPreferFloor p x = Some [0; 1; 1; 2; 3; 4; 4; 5] /\
  rounds RoundPreferFloor (documented AlignCorners (rsw p) (rW p) (rOW p) 1) 1.
Proof.
  exists (mkR 1 2 3 2 4 1 (4 # 3) AlignCorners), (ramp 6).
  split; [repeat split; cbn; lia|]. repeat split; vm_compute; congruence.
Qed.
Print Assumptions C31_align_corners_refuted.

(** ** C51: linear and cubic. *)
Definition same_coord (p : rparams) : Prop := rmode p <> AlignCorners.
Lemma coord_same p : same_coord p ->
  exists ux uy, (forall i, cx coord_c p i = Some (ux i) /\ cx coord_py p i = Some (ux i)) /\
                (forall j, cy coord_c p j = Some (uy j) /\ cy coord_py p j = Some (uy j)).
Proof.
  intros H. unfold same_coord in H. unfold cx, cy. destruct (rmode p); try congruence; cbn [coord_c coord_py].
  - exists (fun i => (inject_Z i + (1 # 2)) / rsh p - (1 # 2))%Q, (fun i => (inject_Z i + (1 # 2)) / rsw p - (1 # 2))%Q. auto.
  - exists (fun i => if 1 <? rOH p then (inject_Z i + (1 # 2)) / rsh p - (1 # 2) else 0)%Q,
           (fun i => if 1 <? rOW p then (inject_Z i + (1 # 2)) / rsw p - (1 # 2) else 0)%Q.
    destruct (1 <? rOH p), (1 <? rOW p); auto.
  - exists (fun i => inject_Z i / rsh p)%Q, (fun i => inject_Z i / rsw p)%Q. auto.
Qed.

Theorem C51_linear_partial : forall (N : num) (q : Q -> T N) (d : T N) src out p act x,
  out <> Temp -> src <> Temp -> 0 <= rC p -> 0 <= rOH p -> 0 <= rOW p ->
  1 < rH p -> 1 < rW p -> same_coord p -> zlen x = rC p * rH p * rW p ->
  let n := rC p * rOH p * rOW p in
  exists code y, linear_c N q src out p act = Some code /\ linear_py N q p d x = Some y /\
    layer_ok code [(src, x)] out n n (map act y).
Proof.
  intros N q d src out p act x Ho Hs HC HOH HOW HH HW S Hx n.
  destruct (coord_same p S) as (ux & uy & Ux & Uy).
  unfold linear_c, by_shape.
  destruct (Z.eqb_spec (rH p) 1); [lia|]. destruct (Z.ltb_spec 1 (rH p)); [|lia]. destruct (Z.eqb_spec (rW p) 1); [lia|].
  destruct (Z.ltb_spec 1 (rW p)); [|lia]. cbn [andb bind].
  eexists. eexists. split; [reflexivity|]. split.
  - unfold linear_py. apply sequence_tab3; try assumption. intros f i j _ _ _.
    destruct (Ux i) as [_ ->]. destruct (Uy j) as [_ ->]. cbn [bind]. reflexivity.
  - rewrite map_tab3. apply (resize_loops_ok N (linear_cell_2d N q src p) src out p act x); auto.
    intros m f i j Hm Hf Hi Hj. destruct (Ux i) as [Ei _]. destruct (Uy j) as [Ej _].
    rewrite (linear_cell_2d_ok N q d src p x m f i j (ux i) (uy j)) by (auto; lia). reflexivity.
Qed.
Print Assumptions C51_linear_partial.

Theorem C51_cubic_partial : forall (N : num) (q : Q -> T N) (d : T N) a src out p act x,
  ring_laws N ->
  out <> Temp -> src <> Temp -> 0 <= rC p -> 0 <= rOH p -> 0 <= rOW p ->
  1 <= rH p -> 1 <= rW p -> ~ (rH p = 1 /\ rW p = 1) -> same_coord p -> zlen x = rC p * rH p * rW p ->
  let n := rC p * rOH p * rOW p in
  exists code y, cubic_c N q a src out p act = Some code /\ cubic_py N q a p d x = Some y /\
    layer_ok code [(src, x)] out n n (map act y).
Proof.
  intros N q d a src out p act x L Ho Hs HC HOH HOW HH HW HN S Hx n.
  destruct (coord_same p S) as (ux & uy & Ux & Uy).
  pose proof (cubic_py_ok N q d L a p x HC HOH HOW ux uy (fun i _ => proj2 (Ux i)) (fun j _ => proj2 (Uy j))) as Py.
  unfold cubic_c, by_shape.
  destruct (Z.eqb_spec (rH p) 1) as [E1|E1]; [|destruct (Z.ltb_spec 1 (rH p)); [|lia]]; destruct (Z.eqb_spec (rW p) 1) as [E2|E2];
    try (destruct (Z.ltb_spec 1 (rW p)); [|lia]); try lia; cbn [andb bind];
    (eexists; eexists; split; [reflexivity|]; split; [exact Py|]; rewrite map_tab3;
     apply (resize_loops_ok N _ src out p act x (fun f i j => cubic_value N q d a p x (ux i) (uy j) f)); auto;
     intros m f i j Hm Hf Hi Hj; destruct (Ux i) as [Ei _]; destruct (Uy j) as [Ej _]).
  - apply cubic_cell_row_ok; auto; lia.
  - apply cubic_cell_col_ok; auto; lia.
  - apply cubic_cell_2d_ok; auto; lia.
Qed.
Print Assumptions C51_cubic_partial.

(** Non-vacuity, in exact rationals: 2x2 -> 4x2 linear and 1x2 -> 1x4 cubic (a = -3/4). *)
From Coq Require Import Qcanon.
Open Scope Z_scope.
Definition qmem (x : list Qc) (n : nat) : mem Qc := mem_of [(Out 0, x); (Out 1, repeat (Q2Qc 0) n); (Temp, repeat (Q2Qc 0) n)].
Definition ints (l : list Z) : list Qc := map (fun z => Q2Qc (inject_Z z)) l.
Definition run {V} (c : option (mem V -> option (mem V))) (m : mem V) (n : nat) : option (list V) :=
  match c with Some c => result_of (c m) (Out 1) n | None => None end.
Example C51_linear_example :
  let p := mkR 1 2 2 4 2 2 1 HalfPixel in
  same_coord p /\
  option_map (map this) (run (linear_c Qcnum Q2Qc (Out 0) (Out 1) p (fun v => v)) (qmem (ints [0; 8; 16; 24]) 8) 8)
    = Some [0; 8; 4; 12; 12; 20; 16; 24]%Q /\
  option_map (map this) (linear_py Qcnum Q2Qc p (Q2Qc 0) (ints [0; 8; 16; 24])) = Some [0; 8; 4; 12; 12; 20; 16; 24]%Q.
Proof. cbv zeta. split; [intro E; discriminate E|]. split; vm_compute; reflexivity. Qed.
Example C51_cubic_example :
  let p := mkR 1 1 2 1 4 1 2 HalfPixel in
  same_coord p /\
  option_map (map this) (run (cubic_c Qcnum Q2Qc (Q2Qc (-3 # 4)) (Out 0) (Out 1) p (fun v => v)) (qmem (ints [0; 256]) 4) 4)
    = option_map (map this) (cubic_py Qcnum Q2Qc (Q2Qc (-3 # 4)) p (Q2Qc 0) (ints [0; 256])) /\
  option_map (map this) (cubic_py Qcnum Q2Qc (Q2Qc (-3 # 4)) p (Q2Qc 0) (ints [0; 256])) = Some [-27; 58; 198; 283]%Q.
Proof. cbv zeta. split; [intro E; discriminate E|]. split; vm_compute; reflexivity. Qed.

(** Limits.  1. For an input with a single row or column the linear code
    interpolates between the first and the last element only. *)
Theorem C51_linear_one_row_refuted : exists p x,
  same_coord p /\ resize_wf p /\ zlen x = rC p * rH p * rW p /\
  option_map (map this) (run (linear_c Qcnum Q2Qc (Out 0) (Out 1) p (fun v => v)) (qmem x 3) 3) = Some [0; 1; 2]%Q /\
  option_map (map this) (linear_py Qcnum Q2Qc p (Q2Qc 0) x) = Some [0; 8; 2]%Q.
Proof.
  exists (mkR 1 1 3 1 3 1 1 HalfPixel), (ints [0; 8; 2]).
  split; [intro E; discriminate E|]. split; [repeat split; cbn; lia|]. split; [reflexivity|]. split; vm_compute; reflexivity.
Qed.
Print Assumptions C51_linear_one_row_refuted.

(** 2. A 1x1 input: no code can be generated (an unbound local variable), although Python computes it. *)
Theorem C51_one_by_one_refuted : forall (N : num) (q : Q -> T N) a src out p act, rH p = 1 -> rW p = 1 ->
  linear_c N q src out p act = None /\ cubic_c N q a src out p act = None.
Proof. intros N q a src out p act H W. unfold linear_c, cubic_c, by_shape. rewrite H, W. split; reflexivity. Qed.
Print Assumptions C51_one_by_one_refuted.

(** 3. align_corners: C divides integers, so nothing is interpolated. *)
Theorem C51_align_corners_refuted : exists p x,
  rmode p = AlignCorners /\ resize_wf p /\ zlen x = rC p * rH p * rW p /\
  option_map (map this) (run (linear_c Qcnum Q2Qc (Out 0) (Out 1) p (fun v => v)) (qmem x 6) 6) = Some [0; 0; 6; 10; 10; 16]%Q /\
  option_map (map this) (linear_py Qcnum Q2Qc p (Q2Qc 0) x) = Some [0; 3; 6; 10; 13; 16]%Q.
Proof.
  exists (mkR 1 2 2 2 3 1 (3 # 2) AlignCorners), (ints [0; 6; 10; 16]).
  split; [reflexivity|]. split; [repeat split; cbn; lia|]. split; [reflexivity|]. split; vm_compute; reflexivity.
Qed.
Print Assumptions C51_align_corners_refuted.
