(** * Merging layers and concatenation of the Keras importer (used by C69). *)
From Coq Require Import String.
From Coq Require Import ZArith List Lia Bool Reals Lra QArith.
Import ListNotations.
From Verif Require Import CMem Tensor Num RealInst Padding Conv ConvProofs ConvHWCProofs Pooling PoolingProofs Pad Reduce Movement MovementProofs Linear Graph LayerKinds Net Import PropertiesImport
  PropertiesActivation PropertiesPooling PropertiesOnnxWindow ExportOps.
From Verif Require Activation Broadcast BroadcastProofs OnnxWindowSpec.
From Verif Require Import KerasSpec Keras KerasProofs KerasOps KerasOps2.
Open Scope list_scope.
Open Scope Z_scope.

(** Three positive dimensions. *)
Definition pos3 (ds : list Z) : Prop := exists h w c, ds = [h; w; c] /\ 0 < h /\ 0 < w /\ 0 < c.
Definition c_of ds := fst (fst (chw_of ds)).
Definition h_of ds := snd (fst (chw_of ds)).
Definition w_of ds := snd (chw_of ds).
Lemma pos3_all ts : Forall sized ts -> Forall (fun ds => zlen ds = 3) (map dims ts) -> Forall pos3 (map dims ts).
Proof.
  intros F G. induction F as [|t ts S F IH]; cbn [map] in *; [constructor|]. inversion G; subst. constructor; [|apply IH; assumption].
  destruct t as [ds x]. cbn [dims] in *. destruct ds as [|a [|b [|c [|d ds]]]]; try (unfold zlen in *; cbn [length] in *; lia).
  destruct (sized_image _ _ _ _ S) as (? & ? & ? & _). exists a, b, c. auto.
Qed.
Lemma chw_all l : Forall pos3 l -> all_some (map chw l) = Some (map chw_of l).
Proof. intros F. induction F as [|d l (h & w & c & -> & _) F IH]; [reflexivity|]. cbn [map all_some chw moved bind]. rewrite IH. reflexivity. Qed.

(** ** Broadcasting. *)
Lemma common_dim_ok a b x : 0 < a -> 0 < b -> common_dim a b = Some x -> x = Z.max a b /\ (a = 1 \/ a = x) /\ (b = 1 \/ b = x).
Proof.
  unfold common_dim. destruct (Z.eqb_spec a b); [intros ? ? E; injection E as <-; lia|]. destruct (Z.eqb_spec a 1); [intros ? ? E; injection E as <-; lia|].
  destruct (Z.eqb_spec b 1); [intros ? ? E; injection E as <-; lia|discriminate].
Qed.
Definition stretchable (A B C : Z) (ds : list Z) : Prop :=
  exists h w c, ds = [h; w; c] /\ (h = 1 \/ h = A) /\ (w = 1 \/ w = B) /\ (c = 1 \/ c = C).
Lemma all_common_ok l : forall s out, Forall pos3 (s :: l) -> all_common s l = Some out ->
  exists A B C, out = [A; B; C] /\ 0 < A /\ 0 < B /\ 0 < C /\ Forall (stretchable A B C) (s :: l) /\
    C = max_of (map c_of (s :: l)) /\ A = max_of (map h_of (s :: l)) /\ B = max_of (map w_of (s :: l)).
Proof.
  induction l as [|t l IH]; intros s out F E; inversion F as [|? ? (h & w & c & -> & Ph & Pw & Pc) F']; subst.
  - cbn in E. injection E as <-. exists h, w, c. repeat (split; [reflexivity || assumption|]). split; [|repeat split].
    constructor; [|constructor]. exists h, w, c. auto.
  - inversion F' as [|? ? (h' & w' & c' & -> & Ph' & Pw' & Pc') F'']; subst. cbn [all_common common_dims] in E.
    destruct (common_dim h h') as [x|] eqn:E1; [|discriminate]. destruct (common_dim w w') as [y|] eqn:E2; [|discriminate]. destruct (common_dim c c') as [z|] eqn:E3; [|discriminate].
    cbn [bind] in E. apply common_dim_ok in E1, E2, E3; try assumption. destruct E1 as (-> & X1 & X2), E2 as (-> & Y1 & Y2), E3 as (-> & Z1 & Z2).
    destruct (IH _ _ ltac:(constructor; [exists (Z.max h h'), (Z.max w w'), (Z.max c c'); repeat split; lia|exact F'']) E) as (A & B & C & -> & PA & PB & PC & G & EC & EA & EB).
    exists A, B, C. split; [reflexivity|]. repeat (split; [assumption|]). pose proof (Forall_inv_tail G) as G'. destruct (Forall_inv G) as (h2 & w2 & c2 & EQ & S1 & S2 & S3). injection EQ as <- <- <-.
    split; [|split; [exact EC|split; [exact EA|exact EB]]].
    constructor; [exists h, w, c; repeat split; lia|]. constructor; [exists h', w', c'; repeat split; lia|exact G'].
Qed.
Lemma fold_max_ok l : forall v, In (fold_left Z.max l v) (v :: l) /\ Forall (fun a => a <= fold_left Z.max l v) (v :: l).
Proof.
  induction l as [|a l IH]; intros v; cbn [fold_left].
  - split; [left; reflexivity|]. constructor; [lia|constructor].
  - destruct (IH (Z.max v a)) as (I1 & I2). inversion I2; subst. split.
    + destruct I1 as [I1 | I1]; [|right; right; exact I1]. rewrite <- I1. destruct (Z.max_spec v a) as [(_ & ->) | (_ & ->)]; [right; left; reflexivity|left; reflexivity].
    + constructor; [lia|]. constructor; [lia|assumption].
Qed.
Lemma max_of_ok l : l <> [] -> Broadcast.is_max l (max_of l).
Proof. destruct l as [|v l]; [congruence|]. intros _. exact (fold_max_ok l v). Qed.

Lemma merge_good impl ninf q m ts t : let o := Merge m in
  Forall sized ts -> importable o (map dims ts) -> apply o ts = Some t -> good impl ninf q o ts t.
Proof.
  intros o SZ HI HA. pose proof (pos3_all _ SZ HI) as P3. clear HI.
  unfold apply in HA. destruct (out_dims o (map dims ts)) as [out|] eqn:EO; [|discriminate]. cbn [bind] in HA. injection HA as <-.
  assert (N2 : 2 <= zlen (map dims ts)).
  { subst o. destruct ts as [|t1 [|t2 ts]]; cbn [map out_dims] in EO; [destruct m; discriminate|destruct m; discriminate|]. unfold zlen. cbn [map length]. lia. }
  assert (EC : exists s l, map dims ts = s :: l /\ all_common s l = Some out).
  { subst o. destruct ts as [|t1 [|t2 ts]]; cbn [map out_dims] in EO; [destruct m; discriminate|destruct m; discriminate|].
    exists (dims t1), (map dims (t2 :: ts)). split; [reflexivity|]. destruct m; try exact EO. destruct (map dims ts) eqn:EM; [|discriminate]. cbn [map all_common]. rewrite EO. cbn [bind]. rewrite EM. reflexivity. }
  destruct EC as (s & l & EL & EA). rewrite EL in P3. destruct (all_common_ok _ _ _ P3 EA) as (A & B & C & -> & PA & PB & PC & F & MC & MA & MB).
  rewrite <- EL in *. clear EA EO. subst o.
  assert (FS : Forall (stretches A B C) ts).
  { clear - F. apply Forall_forall. intros t Ht. rewrite Forall_forall in F. apply (F (dims t)). apply in_map. exact Ht. }
  assert (NE : ts <> []) by (intros ->; unfold zlen in N2; cbn in N2; lia).
  assert (SO : size_of [A; B; C] = C * A * B) by (cbn; lia).
  assert (ZV : zlen (merge_value m ts [A; B; C]) = A * B * C) by (unfold merge_value; cbn [three]; apply zlen_tab3; lia).
  split; [apply sized_image_intro; try lia; exact ZV|].
  cbn [dims import_layer]. unfold import_merge. cbn [chw moved bind]. rewrite (chw_all _ P3). cbn [bind].
  rewrite SO, Z.eqb_refl. destruct (Z.leb_spec 2 (zlen (map dims ts))); [|lia].
  assert (E1 : max_of (map (fun t => fst (fst t)) (map chw_of (map dims ts))) = C) by (rewrite map_map; symmetry; exact MC).
  assert (E2 : max_of (map (fun t => snd (fst t)) (map chw_of (map dims ts))) = A) by (rewrite map_map; symmetry; exact MA).
  assert (E3 : max_of (map snd (map chw_of (map dims ts))) = B) by (rewrite map_map; symmetry; exact MB).
  rewrite E1, E2, E3, !Z.eqb_refl. cbn [andb].
  match goal with |- context [forallb ?f ?l] => assert (E4 : forallb f l = true) end.
  { apply forallb_forall. intros c3 Hc. apply in_map_iff in Hc. destruct Hc as (ds & <- & Hds). rewrite Forall_forall in F. destruct (F _ Hds) as (h & w & c & -> & Hh & Hw & Hc).
    cbn [chw_of]. rewrite !andb_true_iff, !orb_true_iff, !Z.eqb_eq. lia. }
  rewrite E4. eexists. split; [reflexivity|]. cbn [lkind out_size out_channels Broadcast.sC Broadcast.sH Broadcast.sW].
  split; [reflexivity|]. split; [reflexivity|]. split; [exact I|]. cbn [unsoft result]. split; [lia|]. split.
  - rewrite (map_map dims chw_of). apply merge_meaning; assumption.
  - intros _ _. split; [exact linear_ok|]. cbn [lkind]. split; [destruct ts; [congruence|discriminate]|]. split; [|split; [|discriminate]].
    + cbn [app]. rewrite app_nil_r. split; [|split].
      * apply Forall_forall. intros sh Hs. apply in_map_iff in Hs. destruct Hs as (c3 & <- & Hc). apply in_map_iff in Hc. destruct Hc as (ds & <- & Hds).
        rewrite Forall_forall in P3. destruct (P3 _ Hds) as (h & w & c & -> & ? & ? & ?). cbn. repeat split; assumption.
      * apply Forall_forall. intros sh Hs. apply in_map_iff in Hs. destruct Hs as (c3 & <- & Hc). apply in_map_iff in Hc. destruct Hc as (ds & <- & Hds).
        rewrite Forall_forall in F. destruct (F _ Hds) as (h & w & c & -> & ? & ? & ?). repeat split; assumption.
      * assert (NN : forall g : list Z -> Z, map g (map dims ts) <> []) by (intros g; destruct ts; [congruence|discriminate]).
        cbn [Broadcast.sC Broadcast.sH Broadcast.sW]. rewrite !map_map.
        assert (R : forall g g' : list Z -> Z, (forall ds, pos3 ds -> g ds = g' ds) -> map (fun t => g (dims t)) ts = map g' (map dims ts)).
        { intros g g' HG. rewrite map_map. apply map_ext_in. intros t Ht. apply HG. rewrite Forall_forall in P3. apply P3. apply in_map. exact Ht. }
        split; [|split].
        -- rewrite (R (fun d => Broadcast.sC (mk_shape (chw_of d))) c_of) by (intros ds (h & w & c & -> & _); reflexivity). rewrite MC. apply max_of_ok. apply NN.
        -- rewrite (R (fun d => Broadcast.sH (mk_shape (chw_of d))) h_of) by (intros ds (h & w & c & -> & _); reflexivity). rewrite MA. apply max_of_ok. apply NN.
        -- rewrite (R (fun d => Broadcast.sW (mk_shape (chw_of d))) w_of) by (intros ds (h & w & c & -> & _); reflexivity). rewrite MB. apply max_of_ok. apply NN.
    + rewrite !map_map. apply map_ext_in. intros t Ht. rewrite Forall_forall in P3. destruct (P3 (dims t) (in_map _ _ _ Ht)) as (h & w & c & E & _). rewrite E. cbn. lia.
Qed.

(** ** Concatenation. *)
Definition joinable (p A B C : Z) (ds : list Z) : Prop :=
  exists h w c, ds = [h; w; c] /\ 0 < h /\ 0 < w /\ 0 < c /\ (p <> 0 -> h = A) /\ (p <> 1 -> w = B) /\ (p <> 2 -> c = C).
Definition len_at (p : Z) (ds : list Z) : Z := nth (Z.to_nat p) ds 0.
Lemma joined_ok p h w c h' w' c' r : 0 <= p <= 2 -> 0 < h -> 0 < w -> 0 < c -> 0 < h' -> 0 < w' -> 0 < c' ->
  joined (Z.to_nat p) [h; w; c] [h'; w'; c'] = Some r ->
  exists x y z, r = [x; y; z] /\ 0 < x /\ 0 < y /\ 0 < z /\ (p <> 0 -> h = x /\ h' = x) /\ (p <> 1 -> w = y /\ w' = y) /\ (p <> 2 -> c = z /\ c' = z) /\
    len_at p r = len_at p [h; w; c] + len_at p [h'; w'; c'].
Proof.
  intros Hp P1 P2 P3 P4 P5 P6. assert (Q : p = 0 \/ p = 1 \/ p = 2) by lia. destruct Q as [-> | [-> | ->]];
    [change (Z.to_nat 0) with 0%nat|change (Z.to_nat 1) with 1%nat|change (Z.to_nat 2) with 2%nat]; cbn [joined].
  - destruct (list_eq_dec Z.eq_dec [w; c] [w'; c']) as [E|]; [|discriminate]. injection E as <- <-. intros E. injection E as <-. exists (h + h'), w, c. repeat split; try lia; try reflexivity.
  - destruct (Z.eqb_spec h h') as [<-|]; [|discriminate]. destruct (list_eq_dec Z.eq_dec [c] [c']) as [E|]; [|discriminate]. injection E as <-. cbn [bind]. intros E. injection E as <-.
    exists h, (w + w'), c. repeat split; try lia; try reflexivity.
  - destruct (Z.eqb_spec h h') as [<-|]; [|discriminate]. destruct (Z.eqb_spec w w') as [<-|]; [|discriminate]. cbn [bind]. destruct (list_eq_dec Z.eq_dec [] []) as [_|]; [|congruence]. cbn [bind].
    intros E. injection E as <-. exists h, w, (c + c'). repeat split; try lia; try reflexivity.
Qed.
Lemma all_joined_ok p l : 0 <= p <= 2 -> forall s out, Forall pos3 (s :: l) -> all_joined (Z.to_nat p) s l = Some out ->
  exists A B C, out = [A; B; C] /\ 0 < A /\ 0 < B /\ 0 < C /\ Forall (joinable p A B C) (s :: l) /\
    len_at p out = fold_right (fun d n => len_at p d + n) 0 (s :: l).
Proof.
  intros Hp. induction l as [|t l IH]; intros s out F E; inversion F as [|? ? (h & w & c & -> & Ph & Pw & Pc) F']; subst.
  - cbn in E. injection E as <-. exists h, w, c. repeat (split; [reflexivity || assumption|]). split; [|cbn [fold_right]; lia].
    constructor; [|constructor]. exists h, w, c. auto 10.
  - inversion F' as [|? ? (h' & w' & c' & -> & Ph' & Pw' & Pc') F'']; subst. cbn [all_joined] in E.
    destruct (joined (Z.to_nat p) [h; w; c] [h'; w'; c']) as [r|] eqn:EJ; [|discriminate]. cbn [bind] in E.
    destruct (joined_ok _ _ _ _ _ _ _ _ Hp Ph Pw Pc Ph' Pw' Pc' EJ) as (x & y & z & -> & Px & Py & Pz & X & Y & ZZ & EL).
    destruct (IH _ _ ltac:(constructor; [exists x, y, z; auto|exact F'']) E) as (A & B & C & -> & PA & PB & PC & G & ES).
    exists A, B, C. split; [reflexivity|]. repeat (split; [assumption|]). pose proof (Forall_inv_tail G) as G'. destruct (Forall_inv G) as (h2 & w2 & c2 & EQ & _ & _ & _ & S1 & S2 & S3). injection EQ as <- <- <-.
    split.
    + constructor; [exists h, w, c; repeat (split; [first [reflexivity|assumption|lia]|]); lia|]. constructor; [exists h', w', c'; repeat (split; [first [reflexivity|assumption|lia]|]); lia|exact G'].
    + rewrite ES. cbn [fold_right]. lia.
Qed.

Lemma concat_good impl ninf q axis ts t : let o := Concatenate axis in
  Forall sized ts -> importable o (map dims ts) -> apply o ts = Some t -> good impl ninf q o ts t.
Proof.
  intros o SZ (HAx & HI & H2) HA. pose proof (pos3_all _ SZ HI) as P3.
  unfold apply in HA. destruct (out_dims o (map dims ts)) as [out|] eqn:EO; [|discriminate]. cbn [bind] in HA. injection HA as <-. subst o.
  assert (EC : axis <= 3 /\ exists s l, map dims ts = s :: l /\ all_joined (Z.to_nat (axis - 1)) s l = Some out).
  { destruct ts as [|t1 ts]; cbn [map out_dims] in EO; [discriminate|]. inversion HI as [|? ? Z3 _]; subst. rewrite Z3 in EO. unfold axis_of in EO.
    destruct (Z.leb_spec 1 axis); [|lia]. destruct (Z.leb_spec axis 3); cbn [andb] in EO.
    - split; [assumption|]. exists (dims t1), (map dims ts). split; [reflexivity|exact EO].
    - destruct (Z.leb_spec (-(3)) axis), (Z.leb_spec axis (-1)); cbn [andb bind] in EO; try lia; discriminate. }
  destruct EC as (HA3 & s & l & EL & EA). rewrite EL in P3. destruct (all_joined_ok (axis - 1) l ltac:(lia) _ _ P3 EA) as (A & B & C & -> & PA & PB & PC & F & ES).
  rewrite <- EL in *. clear EA EO.
  assert (FS : Forall (joins (axis - 1) A B C) ts).
  { clear - F. apply Forall_forall. intros t Ht. rewrite Forall_forall in F. apply (F (dims t)). apply in_map. exact Ht. }
  assert (EF : fold_right (fun t n => along (axis - 1) t + n) 0 ts = fold_right (fun d n => len_at (axis - 1) d + n) 0 (map dims ts)).
  { clear. induction ts as [|t ts IH]; [reflexivity|]. cbn [map fold_right]. rewrite IH. reflexivity. }
  assert (SO : size_of [A; B; C] = C * A * B) by (cbn; lia).
  assert (EX : axis_of axis (zlen [A; B; C]) = Some (axis - 1)).
  { unfold axis_of. change (zlen [A; B; C]) with 3. destruct (Z.leb_spec 1 axis), (Z.leb_spec axis 3); try lia. reflexivity. }
  assert (ZV : zlen (join_value axis ts [A; B; C]) = A * B * C) by (unfold join_value; rewrite EX; cbn [three]; apply zlen_tab3; lia).
  assert (DM : forall ds, pos3 ds -> (let '(c, h, w) := chw_of ds in dim c h w (concat_axis axis)) = len_at (axis - 1) ds).
  { intros ds (h & w & c & -> & _). assert (Q : axis = 1 \/ axis = 2 \/ axis = 3) by lia. destruct Q as [-> | [-> | ->]]; reflexivity. }
  split; [apply sized_image_intro; try lia; exact ZV|].
  assert (E5 : dim C A B (concat_axis axis) = fold_right (fun t s => let '(c, h, w) := t in dim c h w (concat_axis axis) + s) 0 (map chw_of (map dims ts))).
  { etransitivity; [exact (DM [A; B; C] ltac:(exists A, B, C; auto))|]. rewrite ES. clear - P3 DM. induction P3 as [|d l Hd P3 IH]; [reflexivity|].
    cbn [map fold_right]. rewrite IH, <- (DM d Hd). destruct (chw_of d) as [[c h] w]. reflexivity. }
  assert (AX : concat_axis axis = 1 /\ axis - 1 = 2 \/ concat_axis axis = 2 /\ axis - 1 = 0 \/ concat_axis axis = 3 /\ axis - 1 = 1).
  { assert (Q : axis = 1 \/ axis = 2 \/ axis = 3) by lia. destruct Q as [-> | [-> | ->]]; cbn; lia. }
  cbn [dims import_layer]. unfold import_concat. cbv zeta. cbn [chw moved bind]. rewrite (chw_all _ P3). cbn [bind].
  rewrite SO, Z.eqb_refl, <- E5, Z.eqb_refl. destruct (Z.leb_spec 2 (zlen (map dims ts))); [|lia].
  destruct (Z.leb_spec 1 (concat_axis axis)); [|lia]. destruct (Z.leb_spec (concat_axis axis) 3); [|lia]. cbn [andb].
  match goal with |- context [forallb ?f ?l] => assert (E4 : forallb f l = true) end.
  { apply forallb_forall. intros c3 Hc. apply in_map_iff in Hc. destruct Hc as (ds & <- & Hds). rewrite Forall_forall in F. destruct (F _ Hds) as (h & w & c & -> & _ & _ & _ & Hh & Hw & Hc).
    cbn [chw_of]. rewrite !andb_true_iff, !orb_true_iff, !Z.eqb_eq. lia. }
  rewrite E4. cbn [andb]. eexists. split; [reflexivity|]. cbn [lkind out_size out_channels].
  split; [reflexivity|]. split; [reflexivity|]. split; [exact I|]. cbn [unsoft result]. split; [lia|]. split.
  - rewrite (map_map dims chw_of). apply concat_meaning; try assumption; try lia. rewrite EF. exact ES.
  - intros _ _. split; [exact linear_ok|]. cbn [lkind]. split; [lia|]. split; [lia|]. split; [lia|]. split; [lia|]. split; [|split].
    + rewrite !map_map. apply map_ext_in. intros t Ht. rewrite Forall_forall in P3. destruct (P3 (dims t) (in_map _ _ _ Ht)) as (h & w & c & E & _). rewrite E. cbn. lia.
    + apply Forall_forall. intros c3 Hc. apply in_map_iff in Hc. destruct Hc as (ds & <- & Hds). rewrite Forall_forall in F. destruct (F _ Hds) as (h & w & c & -> & ? & ? & ? & Hh & Hw & Hc).
      cbn [chw_of]. lia.
    + exact E5.
Qed.

(** ** All the layers. *)
Theorem op_good impl ninf q o ts t : Forall sized ts -> importable o (map dims ts) -> apply o ts = Some t -> good impl ninf q o ts t.
Proof.
  intros SZ HI HA. destruct o.
  - apply dense_good; assumption.
  - apply conv_good; assumption.
  - apply max_good; assumption.
  - apply avg_good; assumption.
  - apply flatten_good; assumption.
  - apply merge_good; assumption.
  - apply concat_good; assumption.
  - apply pad_good; assumption.
  - apply bn_good; assumption.
  - destruct HI.
  - destruct HI.
Qed.
