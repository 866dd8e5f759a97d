(** * Properties C23-C26, C33, C34: layers that only move data.
    [layer_ok code srcs out tneed oneed result] (CMem.v): from any memory in
    which the source arrays hold the given tensors and tensor_temp / the output
    array have at least [tneed] / [oneed] cells, [code] runs without any
    out-of-bounds access, leaves [result] in [out], keeps the length of every
    array and modifies nothing but [out] and tensor_temp.
    [at3 d H W x c h w] is element (c,h,w) of the row-major tensor [x]. *)
From Coq Require Import ZArith List Lia Bool.
Import ListNotations.
Open Scope Z_scope.
From Verif Require Import CMem Tensor Num Movement MovementProofs NumInst Graph GraphSpec GraphProofs4.

(** ** C23.  [k a] is the coordinate along axis [a] (1 = channel, 2 = row,
    3 = column). *)
Definition transposed {V} (d : V) (C H W p1 p2 p3 : Z) (x y : list V) : Prop :=
  zlen y = C * H * W /\
  forall k : Z -> Z, 0 <= k 1 < C -> 0 <= k 2 < H -> 0 <= k 3 < W ->
    at3 d (dim C H W p2) (dim C H W p3) y (k p1) (k p2) (k p3) = at3 d H W x (k 1) (k 2) (k 3).

Lemma transpose_transposed {V} (d : V) C H W p1 p2 p3 x :
  0 <= C -> 0 <= H -> 0 <= W -> is_perm p1 p2 p3 ->
  transposed d C H W p1 p2 p3 x (np_transpose d C H W p1 p2 p3 x).
Proof.
  intros HC HH HW HP. unfold transposed, np_transpose.
  destruct (perm_cases _ _ _ HP) as [(->&->&->)|[(->&->&->)|[(->&->&->)|[(->&->&->)|[(->&->&->)|(->&->&->)]]]]];
    cbn; (split; [rewrite zlen_tab3 by assumption; ring|]); intros k H1 H2 H3; rewrite at3_tab3 by assumption; reflexivity.
Qed.

Theorem C23_transpose : forall (V : Type) (d : V) src out C H W p1 p2 p3 act x,
  out <> Temp -> src <> Temp -> 0 <= C -> 0 <= H -> 0 <= W -> is_perm p1 p2 p3 -> zlen x = C * H * W ->
  layer_ok (transpose_c src out C H W p1 p2 p3 act) [(src, x)] out (C * H * W) (C * H * W)
    (map act (np_transpose d C H W p1 p2 p3 x)) /\
  transposed d C H W p1 p2 p3 x (np_transpose d C H W p1 p2 p3 x).
Proof.
  exact (fun V d src out C H W p1 p2 p3 act x Ho Hs HC HH HW HP Hx =>
    conj (transpose_ok d src out C H W p1 p2 p3 act x Ho Hs HC HH HW HP Hx)
         (transpose_transposed d C H W p1 p2 p3 x HC HH HW HP)).
Qed.
Print Assumptions C23_transpose.

(** The hypotheses hold for a 2x3x4 tensor and the permutation (0,3,1,2), read
    and written in the same array; the model computes the expected tensor. *)
Definition mem_of {V} (l : list (bname * list V)) : mem V :=
  fun b => match find (fun p => if bname_eq_dec (fst p) b then true else false) l with
           | Some p => snd p | None => [] end.
Definition result_of {V} (o : option (mem V)) (b : bname) (n : nat) : option (list V) :=
  match o with Some m => Some (firstn n (m b)) | None => None end.
Definition ramp (n : Z) : list Z := tab n (fun k => k).

Example C23_example :
  is_perm 3 1 2 /\ zlen (ramp 24) = 2 * 3 * 4 /\
  result_of (transpose_c (Out 0) (Out 0) 2 3 4 3 1 2 (fun v => v)
     (mem_of [(Out 0, ramp 24); (Temp, repeat 0 24)])) (Out 0) 24
  = Some (tab3 4 2 3 (fun w c h => w + 4 * (h + 3 * c))).
Proof. repeat split; vm_compute; congruence. Qed.

(** ** C24.  [slice_at] walks along the operands laid out one after the other. *)
Theorem C24_concatenate : forall (V : Type) (d : V) out axis OC OH OW act (ops : list (operand * list V)),
  out <> Temp -> 1 <= axis <= 3 -> 0 <= OC -> 0 <= OH -> 0 <= OW ->
  Forall (fun ox => op_src (fst ox) <> Temp) ops ->
  Forall (fits axis OC OH OW) (map (fun ox => shape_of (fst ox) (snd ox)) ops) ->
  dim OC OH OW axis = total axis (map (fun ox => shape_of (fst ox) (snd ox)) ops) ->
  layer_ok (concat_c out axis OC OH OW (map fst ops) act)
    (map (fun ox => (op_src (fst ox), snd ox)) ops) out (OC * OH * OW) (OC * OH * OW)
    (map act (tab3 OC OH OW (slice_at d axis 0 (map (fun ox => shape_of (fst ox) (snd ox)) ops)))).
Proof. exact @concat_ok. Qed.
Print Assumptions C24_concatenate.

(** The Python reference (a fold of numpy.concatenate) gives the same tensor. *)
Theorem C24_concatenate_python : forall (V : Type) (d : V) axis OC OH OW x0 xs,
  1 <= axis <= 3 -> 0 <= OC -> 0 <= OH -> 0 <= OW ->
  Forall (fits axis OC OH OW) (x0 :: xs) -> dim OC OH OW axis = total axis (x0 :: xs) ->
  np_concat d axis x0 xs = (OC, OH, OW, tab3 OC OH OW (slice_at d axis 0 (x0 :: xs))).
Proof. exact @np_concat_spec. Qed.
Print Assumptions C24_concatenate_python.

(** [slice_at] is the usual concatenation: it reads operand [n] at the position
    diminished by the sizes of the operands before it. *)
Theorem C24_slice : forall (V : Type) (d : V) axis (before after : list (@shaped V)) c h w x f i j inf,
  1 <= axis <= 3 ->
  Forall (fun s => let '(c, h, w, _) := s in 0 <= dim c h w axis) before ->
  inf + total axis before <= indices axis f i j < inf + total axis before + dim c h w axis ->
  slice_at d axis inf (before ++ (c, h, w, x) :: after) f i j =
  at3 d h w x (if axis =? 1 then f - (inf + total axis before) else f)
              (if axis =? 2 then i - (inf + total axis before) else i)
              (if axis =? 3 then j - (inf + total axis before) else j).
Proof.
  intros V d axis before. induction before as [|[[[cb hb] wb] xb] before IH]; intros after c h w x f i j inf Ha HF Hp.
  - cbn [app slice_at total fold_right] in *. rewrite Z.add_0_r in *.
    destruct (Z.ltb_spec (indices axis f i j) (inf + dim c h w axis)); [reflexivity|lia].
  - inversion HF as [|? ? Hd HF']; subst. cbv beta iota in Hd.
    cbn [app slice_at].
    assert (ET : total axis (@cons (@shaped V) (cb, hb, wb, xb) before) = dim cb hb wb axis + total axis before) by reflexivity.
    rewrite ET in Hp |- *.
    assert (Hn : 0 <= total axis before).
    { clear -HF'. induction HF' as [|[[[c h] w] x] l Hd _ IH]; [reflexivity|].
      cbv beta iota in Hd. apply Z.add_nonneg_nonneg; assumption. }
    destruct (Z.ltb_spec (indices axis f i j) (inf + dim cb hb wb axis)); [lia|].
    rewrite IH by (try assumption; lia). rewrite !Z.add_assoc. reflexivity.
Qed.
Print Assumptions C24_slice.

Definition ex_ops : list (operand * list Z) :=
  [(mkOperand (Out 0) 1 2 2, ramp 4); (mkOperand (Cst 1) 1 1 2, [10; 11]); (mkOperand (Out 0) 1 2 2, ramp 4)].
Example C24_example :
  Forall (fits 2 1 5 2) (map (fun ox => shape_of (fst ox) (snd ox)) ex_ops) /\
  dim 1 5 2 2 = total 2 (map (fun ox => shape_of (fst ox) (snd ox)) ex_ops) /\
  result_of (concat_c (Out 0) 2 1 5 2 (map fst ex_ops) (fun v => v)
     (mem_of [(Out 0, ramp 12); (Cst 1, [10; 11]); (Temp, repeat 0 20)])) (Out 0) 10
  = Some [0; 1; 2; 3; 10; 11; 0; 1; 2; 3].
Proof.
  split; [|split; reflexivity]. repeat constructor; cbn; try lia; reflexivity.
Qed.

(** ** C25. *)
Theorem C25_gather : forall (V : Type) (d : V) src out axis C H W OC OH OW inds act x,
  out <> Temp -> src <> Temp -> 1 <= axis <= 3 ->
  0 <= C -> 0 <= H -> 0 <= W -> zlen x = C * H * W ->
  OC = (if axis =? 1 then zlen inds else C) ->
  OH = (if axis =? 2 then zlen inds else H) ->
  OW = (if axis =? 3 then zlen inds else W) ->
  (forall k, 0 <= k < zlen inds -> 0 <= nthZ 0 inds k < dim C H W axis) ->
  layer_ok (gather_c src out axis C H W OC OH OW inds act) [(src, x)] out (OC * OH * OW) (OC * OH * OW)
    (map act (tab3 OC OH OW (fun f i j =>
       at3 d H W x (if axis =? 1 then nthZ 0 inds f else f)
                   (if axis =? 2 then nthZ 0 inds i else i)
                   (if axis =? 3 then nthZ 0 inds j else j)))).
Proof.
  intros V d src out axis C H W OC OH OW inds act x Ho Hs Ha HC HH HW Hx E1 E2 E3 Hi.
  pose proof (gather_ok d src out axis C H W OC OH OW inds act x Ho Hs Ha HC HH HW Hx E1 E2 E3 Hi) as G.
  replace (tab3 OC OH OW _) with (np_take d axis C H W inds x); [exact G|]. subst OC OH OW.
  unfold np_take. destruct (Z.eqb_spec axis 1) as [->|]; [reflexivity|].
  destruct (Z.eqb_spec axis 2) as [->|]; [reflexivity|].
  destruct (Z.eqb_spec axis 3) as [->|]; [reflexivity|lia].
Qed.
Print Assumptions C25_gather.

Theorem C25_gather_elements : forall (V : Type) (d : V) src out axis C H W OC OH OW inds act x,
  out <> Temp -> src <> Temp -> 1 <= axis <= 3 ->
  0 <= OC -> 0 <= OH -> 0 <= OW -> zlen inds = OC * OH * OW -> zlen x = C * H * W ->
  (axis <> 1 -> OC = C) -> (axis <> 2 -> OH = H) -> (axis <> 3 -> OW = W) ->
  (forall k, 0 <= k < zlen inds -> 0 <= nthZ 0 inds k < dim C H W axis) ->
  layer_ok (gather_elements_c src out axis H W OC OH OW inds act) [(src, x)] out (OC * OH * OW) (OC * OH * OW)
    (map act (tab3 OC OH OW (fun f i j =>
       let q := at3 0 OH OW inds f i j in
       at3 d H W x (if axis =? 1 then q else f) (if axis =? 2 then q else i) (if axis =? 3 then q else j)))).
Proof.
  intros V d src out axis C H W OC OH OW inds act x Ho Hs Ha HC HH HW Hi Hx E1 E2 E3 Hr.
  pose proof (gather_elements_ok d src out axis C H W OC OH OW inds act x Ho Hs Ha HC HH HW Hi Hx E1 E2 E3 Hr) as G.
  replace (tab3 OC OH OW _) with (gather_elements_py d axis H W OC OH OW inds x); [exact G|].
  unfold gather_elements_py. apply tab3_ext; try assumption. intros c h w _ _ _.
  destruct (Z.eqb_spec axis 1) as [->|]; [reflexivity|].
  destruct (Z.eqb_spec axis 2) as [->|]; [reflexivity|].
  destruct (Z.eqb_spec axis 3) as [->|]; [reflexivity|lia].
Qed.
Print Assumptions C25_gather_elements.

Example C25_example :
  (forall k, 0 <= k < zlen [2; 0; 2; 1] -> 0 <= nthZ 0 [2; 0; 2; 1] k < dim 2 3 2 2) /\
  result_of (gather_c (Out 0) (Out 0) 2 2 3 2 2 4 2 [2; 0; 2; 1] (fun v => v)
     (mem_of [(Out 0, ramp 16); (Temp, repeat 0 16)])) (Out 0) 16
  = Some [4; 5; 0; 1; 4; 5; 2; 3; 10; 11; 6; 7; 10; 11; 8; 9].
Proof.
  split; [|reflexivity]. intros k Hk. cbn in Hk.
  assert (E : k = 0 \/ k = 1 \/ k = 2 \/ k = 3) by lia. destruct E as [->|[->|[->| ->]]]; vm_compute; split; congruence.
Qed.

(** ** C26. *)
Theorem C26_tile : forall (V : Type) (d : V) src out C H W rc rh rw act x,
  out <> Temp -> src <> Temp -> 0 < C -> 0 < H -> 0 < W -> 0 < rc -> 0 < rh -> 0 < rw -> zlen x = C * H * W ->
  let n := (rc * C) * (rh * H) * (rw * W) in
  layer_ok (tile_c src out C H W rc rh rw act) [(src, x)] out n n
    (map act (tab3 (rc * C) (rh * H) (rw * W) (fun f i j => at3 d H W x (f mod C) (i mod H) (j mod W)))).
Proof. exact @tile_ok. Qed.
Print Assumptions C26_tile.

Example C26_example :
  result_of (tile_c (Out 0) (Out 1) 1 2 2 1 2 3 (fun v => v)
     (mem_of [(Out 0, ramp 4); (Out 1, repeat 7 24); (Temp, repeat 0 24)])) (Out 1) 24
  = Some [0; 1; 0; 1; 0; 1; 2; 3; 2; 3; 2; 3; 0; 1; 0; 1; 0; 1; 2; 3; 2; 3; 2; 3].
Proof. reflexivity. Qed.

(** ** C33.  Holds when the allocator gave the layer its predecessor's array ... *)
Theorem C33_flatten_partial : forall (V : Type) (d : V) out channels_last C H W x,
  out <> Temp -> 0 <= C -> 0 <= H -> 0 <= W -> zlen x = C * H * W ->
  layer_ok (flatten_c out channels_last C H W) [(out, x)] out (C * H * W) (C * H * W)
    (if channels_last then tab3 H W C (fun i j f => at3 d H W x f i j) else x).
Proof. exact @flatten_ok. Qed.
Print Assumptions C33_flatten_partial.

(** ... and fails otherwise: in this network layer 1 is read by layers 2 and 3,
    layer 2 runs first and gets another array than its input's; if it is a
    Flatten layer, its generated code (which reads only its own array) cannot
    deliver its input. *)
Definition ex_flatten := of_edges 5 [] [(0,1);(1,3);(1,2);(2,4);(3,4)]%nat.
Theorem C33_flatten_refuted :
  exists s b k, linked ex_flatten /\ acyclic ex_flatten /\ single_input ex_flatten 0%nat /\ no_repeated_input ex_flatten /\
    tri_topo ex_flatten = Some s /\ previous_layer ex_flatten 2%nat = [1%nat] /\
    output_str s 1%nat = Some b /\ dget (paths s) 2%nat = Some k /\
    forall channels_last, ~ (forall C H W (x : list Z), 0 <= C -> 0 <= H -> 0 <= W -> zlen x = C * H * W ->
      layer_ok (flatten_c (Out k) channels_last C H W) [(b, x)] (Out k) (C * H * W) (C * H * W)
        (if channels_last then tab3 H W C (fun i j f => at3 0 H W x f i j) else x)).
Proof.
  eexists. exists (Cst 0), 1%nat.
  split; [apply of_edges_linked; reflexivity|].
  split; [apply (of_edges_acyclic _ _ _ (fun i => nth i [0;1;2;2;3] 0)%nat); reflexivity|].
  split; [apply of_edges_single_input; reflexivity|].
  split; [apply of_edges_no_repeat; repeat constructor; cbn; intuition congruence|].
  split; [vm_compute; reflexivity|]. split; [reflexivity|]. split; [reflexivity|]. split; [reflexivity|].
  intros cl G.
  destruct (G 1 1 1 [5] ltac:(lia) ltac:(lia) ltac:(lia) eq_refl
    (mem_of [(Cst 0, [5]); (Out 1, [7]); (Temp, [0])])) as (m' & E & (r & Hh) & _).
  - repeat constructor. exists []. reflexivity.
  - cbn. lia.
  - cbn. lia.
  - destruct cl; vm_compute in E; inversion E; subst m'; cbn in Hh; discriminate.
Qed.
Print Assumptions C33_flatten_refuted.

(** ** C34. *)
Theorem C34_layout_conversions : forall (V : Type) (d : V) src dst C H W m x,
  src <> dst -> 0 <= C -> 0 <= H -> 0 <= W -> holds m src x -> zlen x = C * H * W -> C * H * W <= zlen (m dst) ->
  (exists m' y, first_to_last_c src dst C H W m = Some m' /\ only m m' dst /\ holds m' dst y /\ zlen y = C * H * W /\
     forall c h w, 0 <= c < C -> 0 <= h < H -> 0 <= w < W -> at3 d W C y h w c = at3 d H W x c h w) /\
  (exists m' y, last_to_first_c src dst C H W m = Some m' /\ only m m' dst /\ holds m' dst y /\ zlen y = C * H * W /\
     forall c h w, 0 <= c < C -> 0 <= h < H -> 0 <= w < W -> at3 d H W y c h w = at3 d W C x h w c).
Proof.
  intros V d src dst C H W m x Hne HC HH HW Hm Hx Hd. split.
  - destruct (first_to_last_spec d src dst C H W m x Hne HC HH HW Hm Hx Hd) as (m' & E & O & Hh).
    exists m', (to_last d C H W x). split; [exact E|]. split; [exact O|]. split; [exact Hh|].
    split; [apply zlen_to_last; assumption|]. intros c h w Hc Hh' Hw. unfold to_last. rewrite at3_tab3 by assumption. reflexivity.
  - destruct (last_to_first_spec d src dst C H W m x Hne HC HH HW Hm Hx Hd) as (m' & E & O & Hh).
    exists m', (to_first d C H W x). split; [exact E|]. split; [exact O|]. split; [exact Hh|].
    split; [apply zlen_to_first; assumption|]. intros c h w Hc Hh' Hw. unfold to_first. rewrite at3_tab3 by assumption. reflexivity.
Qed.
Print Assumptions C34_layout_conversions.

(** Running one conversion after the other restores the tensor. *)
Theorem C34_conversions_are_inverse : forall (V : Type) a b c C H W m (x : list V),
  a <> b -> b <> c -> 0 <= C -> 0 <= H -> 0 <= W -> holds m a x -> zlen x = C * H * W ->
  C * H * W <= zlen (m b) -> C * H * W <= zlen (m c) ->
  (exists m' m'', last_to_first_c a b C H W m = Some m' /\ first_to_last_c b c C H W m' = Some m'' /\ holds m'' c x) /\
  (exists m' m'', first_to_last_c a b C H W m = Some m' /\ last_to_first_c b c C H W m' = Some m'' /\ holds m'' c x).
Proof.
  intros V a b c C H W m x Hab Hbc HC HH HW Hm Hx Hb Hc.
  destruct x as [|d x'] eqn:Ex.
  { rewrite zlen_nil in Hx. split.
    - assert (E : forall s t mm, last_to_first_c (V := V) s t C H W mm = Some mm /\ first_to_last_c (V := V) s t C H W mm = Some mm).
      { intros. unfold last_to_first_c, first_to_last_c. rewrite !for_nest3 by assumption. rewrite !for_0 by lia. auto. }
      exists m, m. destruct (E a b m) as [-> _]. destruct (E b c m) as [_ ->]. repeat split. exists (m c). reflexivity.
    - assert (E : forall s t mm, last_to_first_c (V := V) s t C H W mm = Some mm /\ first_to_last_c (V := V) s t C H W mm = Some mm).
      { intros. unfold last_to_first_c, first_to_last_c. rewrite !for_nest3 by assumption. rewrite !for_0 by lia. auto. }
      exists m, m. destruct (E a b m) as [_ ->]. destruct (E b c m) as [-> _]. repeat split. exists (m c). reflexivity. }
  rewrite <- Ex in *. clear Ex x'. split.
  - destruct (last_to_first_spec d a b C H W m x Hab HC HH HW Hm Hx Hb) as (m1 & E1 & O1 & H1).
    destruct (first_to_last_spec d b c C H W m1 (to_first d C H W x) Hbc HC HH HW H1) as (m2 & E2 & O2 & H2).
    + apply zlen_to_first; assumption.
    + rewrite (only_zlen m m1 b c O1). exact Hc.
    + exists m1, m2. rewrite (to_last_to_first d C H W x HC HH HW Hx) in H2. auto.
  - destruct (first_to_last_spec d a b C H W m x Hab HC HH HW Hm Hx Hb) as (m1 & E1 & O1 & H1).
    destruct (last_to_first_spec d b c C H W m1 (to_last d C H W x) Hbc HC HH HW H1) as (m2 & E2 & O2 & H2).
    + apply zlen_to_last; assumption.
    + rewrite (only_zlen m m1 b c O1). exact Hc.
    + exists m1, m2. rewrite (to_first_to_last d C H W x HC HH HW Hx) in H2. auto.
Qed.
Print Assumptions C34_conversions_are_inverse.

Example C34_example :
  result_of (last_to_first_c NnIn (Out 0) 2 2 2 (mem_of [(NnIn, ramp 8); (Out 0, repeat 9 10)])) (Out 0) 10
  = Some [0; 2; 4; 6; 1; 3; 5; 7; 9; 9].
Proof. reflexivity. Qed.
