(** * ONNX reductions and Softmax: the cells selected by [agree]. *)
From Coq Require Import ZArith List Lia Bool.
Import ListNotations.
Open Scope Z_scope.
From Verif Require Import CMem Tensor Num Reduce Pooling PoolingProofs OnnxSpec OnnxOps OnnxOpsProofs.

(** ** Nested enumeration. *)
Lemma tab_map {A} n (f : Z -> A) : tab n f = map f (zrange n).
Proof. unfold zrange. rewrite map_tab. reflexivity. Qed.
Lemma flat_map_ext_rng {B} n (F G : Z -> list B) : (forall k, 0 <= k < n -> F k = G k) -> flat_map F (zrange n) = flat_map G (zrange n).
Proof. intros H. apply flat_map_ext_in. intros k Hk. apply H. apply in_zrange. exact Hk. Qed.
Lemma tab_nested {A} H W (g : Z -> Z -> A) : 0 <= H -> 0 < W ->
  tab (H * W) (fun k => g (k / W) (k mod W)) = flat_map (fun h => tab W (g h)) (zrange H).
Proof.
  intros HH HW. revert H HH. apply for_ind.
  - rewrite Z.mul_0_l, tab_0, zrange_0 by lia. reflexivity.
  - intros H HH IH. rewrite zrange_succ, flat_map_app by exact HH. cbn [flat_map]. rewrite app_nil_r, <- IH.
    rewrite !tab_map. replace ((H + 1) * W) with (H * W + W) by ring. rewrite zrange_split by nia. rewrite map_app, map_map. f_equal.
    apply map_ext_in. intros k Hk. apply in_zrange in Hk.
    rewrite Z.div_add_l by lia. rewrite Z.div_small by lia. replace ((H * W + k) mod W) with k by (rewrite (Z.add_comm (H * W) k), Z.mod_add, Z.mod_small by lia; reflexivity). f_equal. lia.
Qed.
Lemma tab3_nested {A} C H W (f : Z -> Z -> Z -> A) : 0 <= C -> 0 < H -> 0 < W ->
  tab3 C H W f = flat_map (fun c => flat_map (fun h => tab W (f c h)) (zrange H)) (zrange C).
Proof.
  intros HC HH HW. unfold tab3. rewrite <- Z.mul_assoc.
  transitivity (tab (C * (H * W)) (fun k => (fun c r => f c (r / W) (r mod W)) (k / (H * W)) (k mod (H * W)))).
  - apply tab_ext. intros k Hk. cbv beta. rewrite (Z.mul_comm H W), Z.rem_mul_r by lia.
    pose proof (Z.mod_pos_bound k W HW). pose proof (Z.mod_pos_bound (k / W) H HH).
    replace ((k mod W + W * ((k / W) mod H)) / W) with ((k / W) mod H).
    + replace ((k mod W + W * ((k / W) mod H)) mod W) with (k mod W); [reflexivity|].
      rewrite (Z.mul_comm W), Z.mod_add, Z.mod_mod by lia. reflexivity.
    + rewrite (Z.mul_comm W), Z.div_add, (Z.div_small (k mod W)) by lia. lia.
  - rewrite (tab_nested C (H * W) (fun c r => f c (r / W) (r mod W))) by nia. apply flat_map_ext_rng. intros c Hc.
    apply (tab_nested H W (f c)); lia.
Qed.

(** One coordinate: all the values, or one of them. *)
Definition chosen (r : bool) (n i : Z) : list Z := if r then zrange n else [i].
Lemma flat_map_chosen {B} (r : bool) n i (F : Z -> list B) : 0 <= i < n ->
  flat_map (fun j => if r || (i =? j) then F j else []) (zrange n) = flat_map F (chosen r n i).
Proof.
  intros Hi. unfold chosen. destruct r; cbn [orb]; [reflexivity|].
  rewrite (zrange_clip n i (i + 1)); [|lia|lia|intros k Hk HE; destruct (Z.eqb_spec i k); [lia|reflexivity]].
  replace (i + 1 - i) with 1 by lia. change (zrange 1) with [0]. cbn [flat_map]. rewrite Z.add_0_r, Z.eqb_refl. reflexivity.
Qed.
Definition red (p : nat) (axes : list nat) : bool := existsb (Nat.eqb p) axes.
Lemma filter_flat_map {A B} (q : B -> bool) (f : A -> list B) l : filter q (flat_map f l) = flat_map (fun a => filter q (f a)) l.
Proof. induction l as [|a l IH]; [reflexivity|]. cbn [flat_map]. rewrite filter_app, IH. reflexivity. Qed.
Lemma filter_map_cons p axes i idx j (l : list (list Z)) :
  filter (agree p axes (i :: idx)) (map (cons j) l) = if red p axes || (i =? j) then map (cons j) (filter (agree (S p) axes idx) l) else [].
Proof.
  induction l as [|a l IH]; [cbn; destruct (red p axes || (i =? j)); reflexivity|].
  cbn [map filter]. rewrite IH. clear IH. change (agree p axes (i :: idx) (j :: a)) with ((red p axes || (i =? j)) && agree (S p) axes idx a).
  destruct (red p axes || (i =? j)); cbn [andb]; [|reflexivity]. destruct (agree (S p) axes idx a); reflexivity.
Qed.
Lemma selected_cons p axes i idx n ds : (red p axes = false -> 0 <= i < n) ->
  filter (agree p axes (i :: idx)) (all_indices (n :: ds)) =
  flat_map (fun j => map (cons j) (filter (agree (S p) axes idx) (all_indices ds))) (chosen (red p axes) n i).
Proof.
  intros Hi. cbn [all_indices]. change (tab n (fun k => k)) with (zrange n). rewrite filter_flat_map.
  destruct (red p axes) eqn:R.
  - unfold chosen. apply flat_map_ext_rng. intros j _. rewrite filter_map_cons, R. reflexivity.
  - rewrite <- flat_map_chosen by (apply Hi; reflexivity). apply flat_map_ext_rng. intros j _. rewrite filter_map_cons, R. reflexivity.
Qed.

(** ** Leading ones. *)
Lemma all_indices_ones n ds : all_indices (repeat 1 n ++ ds) = map (app (repeat 0 n)) (all_indices ds).
Proof.
  induction n as [|n IH]; [symmetry; apply map_id|]. cbn [repeat app all_indices]. change (tab 1 (fun k => k)) with [0].
  cbn [flat_map]. rewrite app_nil_r, IH, map_map. reflexivity.
Qed.
Lemma agree_shift n axes : forall idx jdx p, agree (n + p) (map (Nat.add n) axes) idx jdx = agree p axes idx jdx.
Proof.
  assert (E : forall p, existsb (Nat.eqb (n + p)) (map (Nat.add n) axes) = existsb (Nat.eqb p) axes).
  { intros p. induction axes as [|a l IH]; [reflexivity|]. cbn [map existsb]. rewrite IH. f_equal.
    destruct (Nat.eqb_spec (n + p) (n + a)), (Nat.eqb_spec p a); lia. }
  induction idx as [|i idx IH]; intros [|j jdx] p; cbn [agree]; try reflexivity.
  rewrite E. f_equal. rewrite <- IH. f_equal. lia.
Qed.
Lemma agree_lift n axes idx jdx p : agree p axes (repeat 0 n ++ idx) (repeat 0 n ++ jdx) = agree (n + p) axes idx jdx.
Proof.
  revert p. induction n as [|n IH]; intros p; [reflexivity|]. cbn [repeat app agree]. rewrite Z.eqb_refl, orb_true_r, IH. cbn [andb].
  f_equal. lia.
Qed.
Lemma selected_lift {V} (d : V) n ds axes x idx :
  map (el d (repeat 1 n ++ ds) x) (filter (agree 0 (map (Nat.add n) axes) (repeat 0 n ++ idx)) (all_indices (repeat 1 n ++ ds)))
  = map (el d ds x) (filter (agree 0 axes idx) (all_indices ds)).
Proof.
  rewrite all_indices_ones. induction (all_indices ds) as [|a l IH]; [reflexivity|]. cbn [map filter].
  rewrite agree_lift, agree_shift. destruct (agree 0 axes idx a); cbn [map]; [rewrite el_lift; f_equal|]; exact IH.
Qed.
Lemma reduced_dims_lift n axes ds :
  reduced_dims 0 (map (Nat.add n) axes) (repeat 1 n ++ ds) = repeat 1 n ++ reduced_dims 0 axes ds.
Proof.
  assert (E : forall p, existsb (Nat.eqb (n + p)) (map (Nat.add n) axes) = existsb (Nat.eqb p) axes).
  { intros p. induction axes as [|b r IH']; [reflexivity|]. cbn [map existsb]. rewrite IH'. f_equal.
    destruct (Nat.eqb_spec (n + p) (n + b)), (Nat.eqb_spec p b); lia. }
  assert (SH : forall l p, reduced_dims (n + p) (map (Nat.add n) axes) l = reduced_dims p axes l).
  { induction l as [|a l IH]; intros p; [reflexivity|]. cbn [reduced_dims]. rewrite E. f_equal. rewrite <- IH. f_equal. lia. }
  assert (G : forall k p l, reduced_dims p (map (Nat.add n) axes) (repeat 1 k ++ l) = repeat 1 k ++ reduced_dims (k + p) (map (Nat.add n) axes) l).
  { induction k as [|k IH]; intros p l; [reflexivity|]. cbn [repeat app reduced_dims]. rewrite IH.
    replace (k + Datatypes.S p)%nat with (Datatypes.S k + p)%nat by lia. destruct (existsb _ _); reflexivity. }
  rewrite G. f_equal. apply SH.
Qed.
Lemma reduced_lift N k n ds axes x y :
  reduced N k (repeat 1 n ++ ds) (map (Nat.add n) axes) x y -> reduced N k ds axes x y.
Proof.
  intros (E & G). rewrite reduced_dims_lift in E, G. rewrite prod_ones in E. split; [exact E|]. intros idx HI.
  specialize (G _ (inside_lift n _ _ HI)). rewrite el_lift, selected_lift in G. exact G.
Qed.

(** ** Rank four: the selected cells are those of [red_cells]. *)
Lemma map_flat_map {A B C} (g : B -> C) (f : A -> list B) l : map g (flat_map f l) = flat_map (fun a => map g (f a)) l.
Proof. induction l as [|a l IH]; [reflexivity|]. cbn [flat_map]. rewrite map_app, IH. reflexivity. Qed.
Lemma chosen_tab {B} (r : bool) n i (F : Z -> list B) :
  flat_map F (chosen r n i) = flat_map (fun a => F (if r then a else i)) (zrange (if r then n else 1)).
Proof. unfold chosen. destruct r; reflexivity. Qed.
Lemma selected4 N C H W axes x c h w : 0 < C -> 0 < H -> 0 < W ->
  (red 1 axes = false -> 0 <= c < C) -> (red 2 axes = false -> 0 <= h < H) -> (red 3 axes = false -> 0 <= w < W) ->
  map (el (n0 N) [1; C; H; W] x) (filter (agree 0 axes [0; c; h; w]) (all_indices [1; C; H; W])) =
  red_cells N C H W (red 1 axes) (red 2 axes) (red 3 axes) x c h w.
Proof.
  intros HC HH HW Hc Hh Hw.
  rewrite selected_cons by (intros; lia). rewrite selected_cons, selected_cons, selected_cons by assumption.
  replace (chosen (red 0 axes) 1 0) with [0] by (unfold chosen; destruct (red 0 axes); reflexivity). cbn [flat_map]. rewrite app_nil_r.
  cbn [all_indices filter agree map].
  rewrite map_map. rewrite map_flat_map. unfold red_cells. rewrite tab3_nested by (destruct (red 1 axes), (red 2 axes), (red 3 axes); lia).
  rewrite chosen_tab. apply flat_map_ext_rng. intros a _. rewrite map_map, map_flat_map, chosen_tab. apply flat_map_ext_rng. intros b _.
  rewrite map_map, map_flat_map. cbn [map]. rewrite chosen_tab, tab_map.
  induction (zrange (if red 3 axes then W else 1)) as [|e l IH]; [reflexivity|]. cbn [flat_map map app]. rewrite IH, el4. reflexivity.
Qed.

(** ** All the cells. *)
Lemma all_offsets ds : Forall (fun n => 0 < n) ds -> map (offset ds) (all_indices ds) = zrange (prod ds).
Proof.
  induction ds as [|n ds IH]; intros HP; [reflexivity|]. inversion HP; subst. specialize (IH H2).
  assert (PP : 0 < prod ds) by (clear -H2; induction ds; [reflexivity|inversion H2; subst; cbn [prod]; specialize (IHds H3); nia]).
  cbn [all_indices prod]. change (tab n (fun k => k)) with (zrange n). rewrite map_flat_map.
  transitivity (flat_map (fun h => tab (prod ds) (fun o => h * prod ds + o)) (zrange n)).
  - apply flat_map_ext_rng. intros i _. rewrite tab_map, <- IH, !map_map. reflexivity.
  - rewrite <- (tab_nested n (prod ds) (fun h o => h * prod ds + o)) by lia. unfold zrange. apply tab_ext.
    intros k _. rewrite Z.mul_comm. symmetry. apply Z.div_mod. lia.
Qed.
Lemma all_cells {V} (d : V) ds x : Forall (fun n => 0 < n) ds -> zlen x = prod ds -> map (el d ds x) (all_indices ds) = x.
Proof.
  intros HP HX. transitivity (map (nthZ d x) (map (offset ds) (all_indices ds))); [rewrite map_map; reflexivity|].
  rewrite all_offsets by exact HP. rewrite <- tab_map, <- HX. symmetry. apply tab_nthZ.
Qed.
(** Every coordinate agrees when the other dimensions are one. *)
Lemma in_all_indices ds : forall jdx, In jdx (all_indices ds) -> inside ds jdx.
Proof.
  induction ds as [|n ds IH]; intros jdx Hj; cbn [all_indices] in Hj.
  - destruct Hj as [<-|[]]. constructor.
  - apply in_flat_map in Hj. destruct Hj as (i & Hi & Hj). apply in_zrange in Hi. apply in_map_iff in Hj. destruct Hj as (r & <- & Hr).
    constructor; [exact Hi|apply IH; exact Hr].
Qed.
Lemma agree_trivial ds axes : forall p idx jdx, (forall q, (q < length ds)%nat -> red (p + q) axes = false -> coord q ds = 1) ->
  inside ds idx -> inside ds jdx -> agree p axes idx jdx = true.
Proof.
  induction ds as [|n ds IH]; intros p idx jdx HQ HI HJ; inversion HI; subst; inversion HJ; subst; [reflexivity|].
  cbn [agree]. fold (red p axes). rewrite (IH (S p)); [|intros q Hq Hr; apply (HQ (S q)); [cbn [length]; lia|rewrite Nat.add_succ_r; exact Hr]|assumption..].
  rewrite andb_true_r. destruct (red p axes) eqn:R; [reflexivity|].
  specialize (HQ O ltac:(cbn [length]; lia)). rewrite Nat.add_0_r in HQ. specialize (HQ R). cbn in HQ. subst n.
  cbn [orb]. apply Z.eqb_eq. lia.
Qed.
Lemma filter_all {A} (f : A -> bool) l : (forall a, In a l -> f a = true) -> filter f l = l.
Proof.
  induction l as [|a l IH]; intros H; [reflexivity|]. cbn [filter]. rewrite (H a) by (left; reflexivity). f_equal. apply IH.
  intros b Hb. apply H. right. exact Hb.
Qed.
Lemma selected_all {V} (d : V) ds axes x idx : Forall (fun n => 0 < n) ds -> zlen x = prod ds -> inside ds idx ->
  (forall q, (q < length ds)%nat -> ~ In q axes -> coord q ds = 1) ->
  map (el d ds x) (filter (agree 0 axes idx) (all_indices ds)) = x.
Proof.
  intros HP HX HI HQ. rewrite filter_all; [apply all_cells; assumption|]. intros jdx Hj. apply agree_trivial with (ds := ds); auto.
  - intros q Hq Hr. apply HQ; [exact Hq|]. intros Hin. cbn [Nat.add] in Hr. unfold red in Hr.
    assert (existsb (Nat.eqb q) axes = true) by (apply existsb_exists; exists q; split; [exact Hin|apply Nat.eqb_refl]). congruence.
  - apply in_all_indices. exact Hj.
Qed.
Lemma softmaxed_lift N n ds axes x y :
  softmaxed N (repeat 1 n ++ ds) (map (Nat.add n) axes) x y -> softmaxed N ds axes x y.
Proof.
  intros (E & G). rewrite prod_ones in E. split; [exact E|]. intros idx HI.
  specialize (G _ (inside_lift n _ _ HI)). rewrite !el_lift in G. rewrite G. f_equal. f_equal.
  rewrite <- !(map_map (el (n0 N) _ x) (nexp N)). rewrite selected_lift. reflexivity.
Qed.
