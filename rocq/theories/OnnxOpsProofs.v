(** * Layers created from ONNX nodes: the extension to rank four. *)
From Coq Require Import ZArith List Lia Bool.
Import ListNotations.
Open Scope Z_scope.
From Verif Require Import CMem Tensor Num Movement OnnxSpec OnnxOps.

(** ** Leading dimensions equal to one change nothing. *)
Lemma prod_ones n ds : prod (repeat 1 n ++ ds) = prod ds.
Proof. induction n as [|n IH]; [reflexivity|]. cbn [repeat app prod]. rewrite IH. lia. Qed.
Lemma offset_lift n ds idx : offset (repeat 1 n ++ ds) (repeat 0 n ++ idx) = offset ds idx.
Proof. induction n as [|n IH]; [reflexivity|]. cbn [repeat app offset]. rewrite IH. lia. Qed.
Lemma el_lift {V} (d : V) n ds x idx : el d (repeat 1 n ++ ds) x (repeat 0 n ++ idx) = el d ds x idx.
Proof. unfold el. rewrite offset_lift. reflexivity. Qed.
Lemma inside_lift n ds idx : inside ds idx -> inside (repeat 1 n ++ ds) (repeat 0 n ++ idx).
Proof. intros H. induction n as [|n IH]; [exact H|]. cbn [repeat app]. constructor; [lia|exact IH]. Qed.
Lemma set_at_app {A} n p (a v : A) l : set_at (n + p) v (repeat a n ++ l) = repeat a n ++ set_at p v l.
Proof. induction n as [|n IH]; [reflexivity|]. cbn [repeat app Nat.add set_at]. rewrite IH. reflexivity. Qed.
Lemma coord_app n p a l : coord (n + p) (repeat a n ++ l) = coord p l.
Proof. induction n as [|n IH]; [reflexivity|]. cbn [repeat app Nat.add]. exact IH. Qed.
Lemma set_at_length {A} p (v : A) l : length (set_at p v l) = length l.
Proof. revert p. induction l as [|a l IH]; intros [|p]; cbn [set_at length]; auto. Qed.
Lemma set_at_same {A} p (d : A) l : set_at p (nth p l d) l = l.
Proof. revert p. induction l as [|a l IH]; intros [|p]; cbn [set_at nth]; congruence. Qed.

Lemma set_at_in {A} p (v : A) l : (p < length l)%nat -> In v (set_at p v l).
Proof.
  revert p. induction l as [|a l IH]; intros [|p] Hp; cbn [set_at length] in *; [lia|lia|left; reflexivity|right; apply IH; lia].
Qed.

Lemma gathered_lift {V} (d : V) n ds p inds x y :
  gathered d (repeat 1 n ++ ds) (n + p) inds x y -> gathered d ds p inds x y.
Proof.
  intros (E & G). rewrite set_at_app in E, G. rewrite prod_ones in E. split; [exact E|]. intros idx HI.
  specialize (G _ (inside_lift n _ _ HI)). rewrite el_lift, !coord_app, set_at_app, el_lift in G. exact G.
Qed.
Lemma gathered_elements_lift {V} (d : V) n ds ods p q x y :
  gathered_elements d (repeat 1 n ++ ds) (repeat 1 n ++ ods) (n + p) q x y -> gathered_elements d ds ods p q x y.
Proof.
  intros (E & G). rewrite prod_ones in E. split; [exact E|]. intros idx HI.
  specialize (G _ (inside_lift n _ _ HI)). rewrite !el_lift, !coord_app, set_at_app, el_lift in G. exact G.
Qed.
Lemma concatenated_lift {V} (d : V) n p (ops : list (list Z * list V)) ods y :
  concatenated d (n + p) (map (fun o => (repeat 1 n ++ fst o, snd o)) ops) (repeat 1 n ++ ods) y -> concatenated d p ops ods y.
Proof.
  intros (E & G). rewrite prod_ones in E. split; [exact E|]. intros before ds x after idx EO HI.
  specialize (G (map (fun o => (repeat 1 n ++ fst o, snd o)) before) (repeat 1 n ++ ds) x
                (map (fun o => (repeat 1 n ++ fst o, snd o)) after) (repeat 0 n ++ idx)).
  rewrite EO, map_app in G. specialize (G eq_refl (inside_lift n _ _ HI)).
  rewrite map_map in G. cbn [fst] in G.
  rewrite (map_ext _ (fun o : list Z * list V => coord p (fst o))) in G by (intros o; apply coord_app).
  rewrite coord_app, set_at_app, !el_lift in G. exact G.
Qed.
Lemma map2_app f n a b l r : map2 f (repeat a n ++ l) (repeat b n ++ r) = repeat (f a b) n ++ map2 f l r.
Proof. induction n as [|n IH]; [reflexivity|]. cbn [repeat app map2]. rewrite IH. reflexivity. Qed.
Lemma tiled_lift {V} (d : V) n ds reps x y :
  tiled d (repeat 1 n ++ ds) (repeat 1 n ++ reps) x y -> tiled d ds reps x y.
Proof.
  intros (E & G). rewrite map2_app in E, G. change (1 * 1) with 1 in *. rewrite prod_ones in E. split; [exact E|].
  intros idx HI. specialize (G _ (inside_lift n _ _ HI)). rewrite map2_app in G. change (0 mod 1) with 0 in G.
  rewrite !el_lift in G. exact G.
Qed.

(** ** Shapes. *)
Lemma resolve_run raw : Forall (fun n => 0 <= n) raw -> resolve raw = run_dims raw.
Proof.
  intros H. unfold resolve, run_dims. apply map_ext_in. intros n Hn. rewrite Forall_forall in H. specialize (H n Hn).
  destruct (n =? 0); [reflexivity|]. destruct (Z.ltb_spec n 0); [lia|reflexivity].
Qed.
Lemma run_dims_length raw : length (run_dims raw) = length raw.
Proof. apply map_length. Qed.
Lemma run_dims_pos raw : Forall (fun n => 0 <= n) raw -> Forall (fun n => 0 < n) (run_dims raw).
Proof.
  intros H. unfold run_dims. rewrite Forall_map. eapply Forall_impl; [|exact H]. intros n Hn. cbv beta in *.
  destruct (Z.eqb_spec n 0); lia.
Qed.
Lemma get_shape_eq raw : 1 <= zlen raw <= 4 -> Forall (fun n => 0 <= n) raw ->
  get_shape raw = repeat 1 (4 - length raw) ++ run_dims raw.
Proof.
  intros Hl H. unfold get_shape, extend. rewrite resolve_run by exact H. unfold zlen in Hl.
  pose proof (run_dims_length raw) as L. destruct (run_dims raw) as [|n r] eqn:E; [cbn in L; lia|]. rewrite L.
  destruct (Nat.leb_spec (length raw) 4); [reflexivity|lia].
Qed.
(** The extended shape of one sample. *)
Lemma sample_shape raw : one_sample raw -> exists C H W, 0 < C /\ 0 < H /\ 0 < W /\
  get_shape raw = [1; C; H; W] /\ repeat 1 (4 - length raw) ++ run_dims raw = [1; C; H; W].
Proof.
  intros (Hl & Hp & H4). pose proof (get_shape_eq raw Hl Hp) as E. rewrite E.
  pose proof (run_dims_pos raw Hp) as P. pose proof (run_dims_length raw) as L. unfold zlen in *.
  destruct (run_dims raw) as [|a [|b [|c [|e [|g r]]]]]; cbn [length] in L; try lia; rewrite <- L in *;
    repeat match goal with H : Forall _ (_ :: _) |- _ => inversion H; subst; clear H end.
  - exists 1, 1, a. cbn. repeat split; lia.
  - exists 1, a, b. cbn. repeat split; lia.
  - exists a, b, c. cbn. repeat split; lia.
  - exists b, c, e. cbn. specialize (H4 eq_refl). cbn in H4. subst a. repeat split; lia.
Qed.
Lemma import_axis_eq raw a : one_sample raw -> valid_axis (run_dims raw) a ->
  import_axis (get_shape raw) raw a = Z.of_nat ((4 - length raw) + axis_pos (run_dims raw) a) /\
  (axis_pos (run_dims raw) a < length raw)%nat.
Proof.
  intros HS HV. destruct (sample_shape raw HS) as (C & H & W & _ & _ & _ & E & _). rewrite E. destruct HS as (Hl & _).
  unfold import_axis, axis_pos, from_back, valid_axis, zlen in *. rewrite run_dims_length in *. cbn [length].
  destruct (Z.ltb_spec a 0); lia.
Qed.

(** ** Rank four. *)
Lemma inside4 C H W idx : inside [1; C; H; W] idx -> exists c h w, idx = [0; c; h; w] /\ 0 <= c < C /\ 0 <= h < H /\ 0 <= w < W.
Proof.
  intros HI. unfold inside in HI.
  repeat match goal with H : Forall2 _ (_ :: _) _ |- _ => inversion H; subst; clear H end.
  match goal with H : Forall2 _ [] _ |- _ => inversion H; subst; clear H end.
  match goal with H : 0 <= ?y < 1 |- _ => assert (y = 0) by lia; subst y end. do 3 eexists. split; [reflexivity|]. lia.
Qed.
Lemma el4 {V} (d : V) b C H W x c h w : el d [b; C; H; W] x [0; c; h; w] = at3 d H W x c h w.
Proof. unfold el, at3, idx3. f_equal. cbn [offset prod]. ring. Qed.
Lemma prod4 C H W : prod [1; C; H; W] = C * H * W.
Proof. cbn [prod]. ring. Qed.

Lemma axis_cases k : 1 <= k <= 3 -> k = 1 \/ k = 2 \/ k = 3.
Proof. lia. Qed.

Lemma adjust_range s i : - s <= i < s -> adjust_index s i = from_back s i /\ 0 <= adjust_index s i < s.
Proof. unfold adjust_index, from_back. intros H. destruct (Z.ltb_spec i 0); lia. Qed.

Lemma gathered4 {V} (d : V) C H W k inds x : 1 <= k <= 3 -> 0 < C -> 0 < H -> 0 < W ->
  let s := coord (Z.to_nat k) [1; C; H; W] in
  Forall (fun i => - s <= i < s) inds ->
  let inds' := map (adjust_index s) inds in
  gathered d [1; C; H; W] (Z.to_nat k) inds x
    (tab3 (if k =? 1 then zlen inds' else C) (if k =? 2 then zlen inds' else H) (if k =? 3 then zlen inds' else W)
       (fun f i j => at3 d H W x (if k =? 1 then nthZ 0 inds' f else f) (if k =? 2 then nthZ 0 inds' i else i)
                                 (if k =? 3 then nthZ 0 inds' j else j))).
Proof.
  intros Hk HC HH HW s HI inds'.
  assert (EL : zlen inds' = zlen inds) by apply zlen_map. pose proof (zlen_nonneg inds).
  assert (EN : forall q, 0 <= q < zlen inds -> nthZ 0 inds' q = from_back s (nthZ 0 inds q)).
  { intros q Hq. unfold inds'. rewrite (nthZ_map _ 0) by exact Hq. apply adjust_range.
    rewrite Forall_forall in HI. apply HI. destruct (rdl_some inds q Hq) as (v & Ev). unfold nthZ. rewrite Ev.
    unfold rdl in Ev. destruct (q <? 0); [discriminate|]. eapply nth_error_In; exact Ev. }
  unfold gathered. unfold s in EN. rewrite EL.
  destruct (axis_cases k Hk) as [->|[->| ->]]; change (Z.to_nat 1) with 1%nat in *; change (Z.to_nat 2) with 2%nat in *; change (Z.to_nat 3) with 3%nat in *;
    cbn [Z.eqb Pos.eqb set_at coord nth] in *;
    (split; [rewrite zlen_tab3 by lia; rewrite prod4; reflexivity|]);
    intros idx Hidx; apply inside4 in Hidx; destruct Hidx as (c & h & w & -> & Hc & Hh & Hw);
    cbn [set_at nth]; rewrite !el4, at3_tab3 by assumption; rewrite EN by assumption; reflexivity.
Qed.

Lemma rdl_coord k C H W : 1 <= k <= 3 -> rdl [1; C; H; W] k = Some (coord (Z.to_nat k) [1; C; H; W]).
Proof. intros Hk. destruct (axis_cases k Hk) as [->|[->| ->]]; reflexivity. Qed.
Lemma find_size4 C H W : 0 < C -> 0 < H -> 0 < W -> find_size [1; C; H; W] = C * H * W.
Proof.
  intros. unfold find_size. cbn [fold_left]. change (1 =? 0) with false.
  destruct (Z.eqb_spec C 0); [lia|]. destruct (Z.eqb_spec H 0); [lia|]. destruct (Z.eqb_spec W 0); [lia|]. ring.
Qed.

Lemma in_nthZ (l : list Z) q : 0 <= q < zlen l -> In (nthZ 0 l q) l.
Proof.
  intros Hq. destruct (rdl_some l q Hq) as (v & Ev). unfold nthZ. rewrite Ev.
  unfold rdl in Ev. destruct (q <? 0); [discriminate|]. eapply nth_error_In; exact Ev.
Qed.

(** An explicit axis that is not the batch axis. *)
Lemma axis_setup raw a : one_sample raw -> valid_axis (run_dims raw) a ->
  (zlen (run_dims raw) = 4 -> axis_pos (run_dims raw) a <> 0%nat) ->
  exists C H W, 0 < C /\ 0 < H /\ 0 < W /\ get_shape raw = [1; C; H; W] /\
    repeat 1 (4 - length raw) ++ run_dims raw = [1; C; H; W] /\
    exists k, import_axis (get_shape raw) raw a = k /\ 1 <= k <= 3 /\
      Z.to_nat k = ((4 - length raw) + axis_pos (run_dims raw) a)%nat /\
      (axis_pos (run_dims raw) a < length (run_dims raw))%nat /\
      coord (axis_pos (run_dims raw) a) (run_dims raw) = coord (Z.to_nat k) [1; C; H; W].
Proof.
  intros HS HV HB. destruct (sample_shape raw HS) as (C & H & W & HC & HH & HW & E1 & E2).
  destruct (import_axis_eq raw a HS HV) as (EA & LP). exists C, H, W. do 5 (split; [assumption|]).
  eexists. split; [exact EA|]. destruct HS as (HL & HP & H4). unfold zlen in *. rewrite run_dims_length in *.
  assert (TK : Z.to_nat (Z.of_nat ((4 - length raw) + axis_pos (run_dims raw) a)) = ((4 - length raw) + axis_pos (run_dims raw) a)%nat) by lia.
  split; [destruct (Nat.eq_dec (length raw) 4) as [E|E]; [specialize (HB ltac:(lia))|]; lia|].
  split; [exact TK|]. split; [exact LP|]. rewrite TK, <- E2, coord_app. reflexivity.
Qed.
(** The output shape of a node that changes one axis. *)
Lemma shape_set raw_in raw_out p m C H W k : 1 <= zlen raw_in <= 4 -> Forall (fun n => 0 <= n) raw_out ->
  1 <= k <= 3 -> repeat 1 (4 - length raw_in) ++ run_dims raw_in = [1; C; H; W] -> Z.to_nat k = ((4 - length raw_in) + p)%nat ->
  (p < length (run_dims raw_in))%nat -> run_dims raw_out = set_at p m (run_dims raw_in) ->
  0 < m /\ length raw_out = length raw_in /\
  get_shape raw_out = [1; if k =? 1 then m else C; if k =? 2 then m else H; if k =? 3 then m else W].
Proof.
  intros HL HO Hk E2 TK LP ER.
  assert (LO : length raw_out = length raw_in) by (rewrite <- (run_dims_length raw_out), ER, set_at_length; apply run_dims_length).
  split; [|split; [exact LO|]].
  - pose proof (run_dims_pos raw_out HO) as P. rewrite Forall_forall in P. apply P. rewrite ER. apply set_at_in. exact LP.
  - rewrite get_shape_eq by (try assumption; unfold zlen in *; lia). rewrite ER, LO, <- set_at_app, E2, <- TK.
    destruct (axis_cases k Hk) as [->|[->| ->]]; reflexivity.
Qed.

Lemma gathered_elements4 {V} (d : V) C H W k m inds x : 1 <= k <= 3 -> 0 < C -> 0 < H -> 0 < W -> 0 < m ->
  let s := coord (Z.to_nat k) [1; C; H; W] in
  let OC := if k =? 1 then m else C in let OH := if k =? 2 then m else H in let OW := if k =? 3 then m else W in
  Forall (fun i => - s <= i < s) inds -> zlen inds = OC * OH * OW ->
  let inds' := map (adjust_index s) inds in
  gathered_elements d [1; C; H; W] [1; OC; OH; OW] (Z.to_nat k) inds x
    (tab3 OC OH OW (fun f i j =>
       let q := at3 0 OH OW inds' f i j in
       at3 d H W x (if k =? 1 then q else f) (if k =? 2 then q else i) (if k =? 3 then q else j))).
Proof.
  intros Hk HC HH HW Hm s OC OH OW HI HL inds'.
  assert (EN : forall q, 0 <= q < zlen inds -> nthZ 0 inds' q = from_back s (nthZ 0 inds q)).
  { intros q Hq. unfold inds'. rewrite (nthZ_map _ 0) by exact Hq. apply adjust_range.
    rewrite Forall_forall in HI. apply HI. apply in_nthZ. exact Hq. }
  assert (EA : forall f i j, 0 <= f < OC -> 0 <= i < OH -> 0 <= j < OW -> at3 0 OH OW inds' f i j = from_back s (at3 0 OH OW inds f i j)).
  { intros f i j Hf Hi Hj. unfold at3. apply EN. rewrite HL. apply idx3_range; assumption. }
  assert (POC : 0 < OC) by (unfold OC; destruct (k =? 1); lia).
  assert (POH : 0 < OH) by (unfold OH; destruct (k =? 2); lia).
  assert (POW : 0 < OW) by (unfold OW; destruct (k =? 3); lia).
  split; [rewrite zlen_tab3, prod4 by lia; reflexivity|].
  intros idx Hidx. apply inside4 in Hidx. destruct Hidx as (c & h & w & -> & Hc & Hh & Hw).
  rewrite !el4, at3_tab3 by assumption. cbv zeta. rewrite EA by assumption. fold s.
  generalize (from_back s (at3 0 OH OW inds c h w)). intros q.
  destruct (axis_cases k Hk) as [->|[->| ->]]; cbn [Z.eqb Pos.eqb];
    change (Z.to_nat 1) with 1%nat; change (Z.to_nat 2) with 2%nat; change (Z.to_nat 3) with 3%nat; cbn [set_at]; rewrite el4; reflexivity.
Qed.
