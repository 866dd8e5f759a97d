(** * add, cat and batch_norm in the PyTorch importer (used by C71). *)
From Coq Require Import String.
From Coq Require Import ZArith List Lia Bool Reals Lra QArith.
Import ListNotations.
From Verif Require Import CMem Tensor Num RealInst Padding Conv ConvProofs ConvHWCProofs Pooling PoolingProofs Movement MovementProofs Linear Graph LayerKinds Net NetProofs Import
  PropertiesActivation PropertiesPooling PropertiesOnnxWindow.
From Verif Require Activation Broadcast BroadcastProofs KerasProofs KerasOps KerasOps3 KerasSpec ExportOps.
From Verif Require Import TorchSpec Torch TorchOps.
Open Scope string_scope.
Open Scope list_scope.
Open Scope Z_scope.

Definition three_of (ds : list Z) : Z * Z * Z := match ds with [a; b; c] => (a, b, c) | _ => (0, 0, 0) end.
Lemma pos3_all ins : Forall positive_dims ins -> Forall (fun ds => zlen ds = 3) ins -> Forall KerasOps3.pos3 ins.
Proof.
  intros F G. induction F as [|ds ins P F IH]; [constructor|]. inversion G; subst. constructor; [|apply IH; assumption].
  destruct ds as [|a [|b [|c [|d ds]]]]; try (unfold zlen in *; cbn [length] in *; lia).
  inversion P as [|? ? ? P1]; inversion P1 as [|? ? ? P2]; inversion P2; subst. exists a, b, c. auto.
Qed.
Lemma chw_all l : Forall KerasOps3.pos3 l -> all_some (map chw l) = Some (map three_of l).
Proof. intros F. induction F as [|d l (h & w & c & -> & _) F IH]; [reflexivity|]. cbn [map all_some chw bind]. rewrite IH. reflexivity. Qed.
Lemma F2_length {A B} (P : A -> B -> Prop) l l' : Forall2 P l l' -> length l = length l'.
Proof. intros F. induction F as [|? ? ? ? _ F IH]; [reflexivity|]. cbn [length]. rewrite IH. reflexivity. Qed.
Lemma held_all st nms vs : Forall2 (fun a v => dlookup (ts_dic st) a = Some v) nms vs -> all_some (map (held st) (map ANode nms)) = Some vs.
Proof. intros F. induction F as [|a v nms vs E F IH]; [reflexivity|]. cbn [map all_some held]. rewrite E. cbn [bind]. rewrite IH. reflexivity. Qed.
Lemma snd_all vs ins : Forall (fun ds => zlen ds = 3) ins -> Forall2 (fun (v : nat * list Z) ds => snd v = ds \/ zlen ds = 1) vs ins -> map snd vs = ins.
Proof. intros Z3 F. induction F as [|v ds vs ins E F IH]; [reflexivity|]. inversion Z3; subst. cbn [map]. rewrite IH by assumption. destruct E as [->|E]; [reflexivity|lia]. Qed.

(** ** add *)
Lemma bat_stretched t A B C i j k : KerasOps3.stretchable A B C (dims t) -> 0 <= i < A -> 0 <= j < B -> 0 <= k < C ->
  Broadcast.bat Rnum (mk_shape (three_of (dims t)), vals t) i j k = KerasSpec.el_stretched t i j k.
Proof.
  intros (a & b & c & E & _) _ _ _. unfold Broadcast.bat, KerasSpec.el_stretched, KerasSpec.el3. rewrite E. cbn [three_of mk_shape fst snd Broadcast.sC Broadcast.sH Broadcast.sW KerasSpec.three].
  reflexivity.
Qed.
Lemma add_created impl ninf q alpha given ins out : let o := Add alpha in
  Forall positive_dims ins -> importable o given ins -> out_dims o ins = Some out -> exists l, created impl ninf q o given ins out l.
Proof.
  intros o; subst o; intros PD (DF & -> & Z3) EO. destruct ins as [|s [|t [|? ?]]]; try discriminate. cbn [out_dims] in EO.
  pose proof (pos3_all _ PD Z3) as P3. assert (EA : KerasSpec.all_common s [t] = Some out) by (cbn [KerasSpec.all_common]; rewrite EO; reflexivity).
  destruct (KerasOps3.all_common_ok _ _ _ P3 EA) as (A & B & C & -> & PA & PB & PC & F & MC & MA & MB). clear EA EO.
  set (ins := [s; t]) in *.
  assert (M1 : max_of (map (fun u => fst (fst u)) (map three_of ins)) = A) by (rewrite MA; unfold ins; inversion P3 as [|? ? (? & ? & ? & -> & _) P4]; inversion P4 as [|? ? (? & ? & ? & -> & _) _]; reflexivity).
  assert (M2 : max_of (map (fun u => snd (fst u)) (map three_of ins)) = B) by (rewrite MB; unfold ins; inversion P3 as [|? ? (? & ? & ? & -> & _) P4]; inversion P4 as [|? ? (? & ? & ? & -> & _) _]; reflexivity).
  assert (M3 : max_of (map snd (map three_of ins)) = C) by (rewrite MC; unfold ins; inversion P3 as [|? ? (? & ? & ? & -> & _) P4]; inversion P4 as [|? ? (? & ? & ? & -> & _) _]; reflexivity).
  exists (plain (KBroadcast Rnum Broadcast.BAdd (map mk_shape (map three_of ins)) None (Broadcast.mkShape A B C))).
  constructor; cbn [lkind plain lact made_kind out_size out_channels Broadcast.sC Broadcast.sH Broadcast.sW].
  - intros st nm nms vs F2 FD _. pose proof (snd_all _ _ Z3 FD) as ES. pose proof (held_all _ _ _ F2) as HA.
    assert (LN : length nms = 2%nat) by (rewrite (F2_length _ _ _ F2), <- (map_length snd), ES; reflexivity).
    destruct nms as [|a1 [|a2 [|? ?]]]; try discriminate. inversion F2 as [|? v1 ? ? E1 _]; subst. cbn [defaults_omitted] in DF.
    unfold visit, exported. cbn [c_target c_name c_args n_op n_name n_inputs n_given target arguments]. dispatch. cbn [map app].
    destruct given as [|[|g]]; try lia. cbn [firstn]. rewrite firstn_nil. cbn [nth_error bind held]. rewrite E1. cbn [map] in HA. cbn [map]. rewrite HA. cbn [bind]. rewrite ES.
    unfold import_add. cbn [chw bind]. rewrite (chw_all _ P3). cbn [bind]. rewrite M1, M2, M3, size3, !Z.eqb_refl. cbn [andb].
    match goal with |- context [forallb ?f ?l] => assert (E4 : forallb f l = true) end.
    { apply forallb_forall. intros c3 Hc. apply in_map_iff in Hc. destruct Hc as (ds & <- & Hds). rewrite Forall_forall in F. destruct (F _ Hds) as (h & w & c & -> & Hh & Hw & Hc).
      cbn [three_of]. rewrite !andb_true_iff, !orb_true_iff, !Z.eqb_eq. lia. }
    rewrite E4. cbn [bind]. reflexivity.
  - apply positive3; lia.
  - reflexivity.
  - reflexivity.
  - rewrite size3. reflexivity.
  - reflexivity.
  - exact I.
  - exact I.
  - intros ts EI _. destruct ts as [|u [|v [|? ?]]]; try discriminate. cbn [result]. unfold sum_value. cbn [KerasSpec.three]. rewrite size3. split; [apply zlen_tab3; lia|].
    rewrite Forall_forall in F. unfold meaning, meaning_with. cbn [plain lkind lact]. unfold BroadcastProofs.broadcast_result. cbn [Broadcast.sC Broadcast.sH Broadcast.sW Activation.compute option_map]. rewrite map_id.
    apply tab3_ext; try lia. intros i j k Hi Hj Hk. unfold ins. cbn [map dims] in EI. injection EI as EU EV. subst s t. cbn [map List.combine].
    unfold BroadcastProofs.combine. cbn [fold_left Broadcast.bop nadd Rnum].
    etransitivity; [apply (f_equal2 Rplus); [exact (bat_stretched u A B C i j k (F (dims u) (or_introl eq_refl)) Hi Hj Hk)|exact (bat_stretched v A B C i j k (F (dims v) (or_intror (or_introl eq_refl))) Hi Hj Hk)]|]. lra.
  - intros _ _. split; [exact KerasOps.linear_ok|]. cbn [lkind plain]. split; [discriminate|]. split; [|split; [|discriminate]].
    + cbn [app]. rewrite app_nil_r. split; [|split].
      * apply Forall_forall. intros sh Hs. apply in_map_iff in Hs. destruct Hs as (c3 & <- & Hc). apply in_map_iff in Hc. destruct Hc as (ds & <- & Hds).
        rewrite Forall_forall in P3. destruct (P3 _ Hds) as (h & w & c & -> & ? & ? & ?). cbn. repeat split; assumption.
      * apply Forall_forall. intros sh Hs. apply in_map_iff in Hs. destruct Hs as (c3 & <- & Hc). apply in_map_iff in Hc. destruct Hc as (ds & <- & Hds).
        rewrite Forall_forall in F. destruct (F _ Hds) as (h & w & c & -> & ? & ? & ?). repeat split; assumption.
      * cbn [Broadcast.sC Broadcast.sH Broadcast.sW].
        split; [|split]; [rewrite <- M1|rewrite <- M2|rewrite <- M3];
        (match goal with |- Broadcast.is_max ?l (max_of ?l') => replace l with l' by (unfold ins; inversion P3 as [|? ? (? & ? & ? & -> & _) P4]; inversion P4 as [|? ? (? & ? & ? & -> & _) _]; reflexivity) end;
         apply KerasOps3.max_of_ok; unfold ins; discriminate).
    + rewrite !map_map. apply map_ext_in. intros ds Hd. rewrite Forall_forall in P3. destruct (P3 _ Hd) as (h & w & c & -> & _). cbn [three_of mk_shape Broadcast.sC Broadcast.sH Broadcast.sW]. apply size3.
Qed.

(** ** cat *)
Definition along (p : Z) (t : tensor) : Z := nth (Z.to_nat p) (dims t) 0.
Lemma slice_joined p A B C ts i j k inf : 0 <= p <= 2 -> Forall (fun t => KerasOps3.joinable p A B C (dims t)) ts ->
  0 <= i < A -> 0 <= j < B -> 0 <= k < C -> 0 <= inf ->
  inf <= (if p =? 0 then i else if p =? 1 then j else k) < inf + fold_right (fun t s => along p t + s) 0 ts ->
  slice_at 0%R (p + 1) inf (map (fun t => (three_of (dims t), vals t)) ts) i j k =
  KerasSpec.joined_at p ts (if p =? 0 then i - inf else i) (if p =? 1 then j - inf else j) (if p =? 2 then k - inf else k).
Proof.
  intros Hp F Hi Hj Hk. revert inf. induction F as [|t ts (a & b & c & E & Ha & Hb & Hc & E1 & E2 & E3) F IH]; intros inf Hinf HR.
  { cbn [fold_right] in HR. lia. }
  cbn [map slice_at KerasSpec.joined_at fold_right] in *. unfold along in HR at 1. rewrite E in *. cbn [three_of KerasSpec.three].
  assert (P3 : p = 0 \/ p = 1 \/ p = 2) by lia. destruct P3 as [-> | [-> | ->]]; [change (0 + 1) with 1 in *|change (1 + 1) with 2 in *|change (2 + 1) with 3 in *]; cbn [Z.eqb Pos.eqb] in *; unfold indices, dim in *; cbn [Z.eqb Pos.eqb] in *.
  - change (nth (Z.to_nat 0) [a; b; c] 0) with a in HR. destruct (Z.ltb_spec i (inf + a)), (Z.ltb_spec (i - inf) a); try lia.
    + unfold KerasSpec.el3. rewrite E. reflexivity.
    + rewrite IH; [cbn [Z.eqb Pos.eqb]; f_equal; lia|lia|cbn [Z.eqb Pos.eqb]; lia].
  - change (nth (Z.to_nat 1) [a; b; c] 0) with b in HR. destruct (Z.ltb_spec j (inf + b)), (Z.ltb_spec (j - inf) b); try lia.
    + unfold KerasSpec.el3. rewrite E. reflexivity.
    + rewrite IH; [cbn [Z.eqb Pos.eqb]; f_equal; lia|lia|cbn [Z.eqb Pos.eqb]; lia].
  - change (nth (Z.to_nat 2) [a; b; c] 0) with c in HR. destruct (Z.ltb_spec k (inf + c)), (Z.ltb_spec (k - inf) c); try lia.
    + unfold KerasSpec.el3. rewrite E. reflexivity.
    + rewrite IH; [cbn [Z.eqb Pos.eqb]; f_equal; lia|lia|cbn [Z.eqb Pos.eqb]; lia].
Qed.
Lemma shaped_combine (ts : list tensor) :
  shaped_inputs Rnum (map three_of (map dims ts)) (map vals ts) = map (fun t => (three_of (dims t), vals t)) ts.
Proof.
  unfold shaped_inputs. induction ts as [|t ts IH]; [reflexivity|]. cbn [map List.combine]. rewrite IH. f_equal. cbn [fst snd]. destruct (three_of (dims t)) as [[c h] w]. reflexivity.
Qed.
Lemma held_names st nms vs : Forall2 (fun a v => dlookup (ts_dic st) a = Some v) nms vs -> all_some (map (fun nm => held st (ANode nm)) nms) = Some vs.
Proof. intros F. pose proof (held_all _ _ _ F) as H. rewrite map_map in H. exact H. Qed.
Lemma cat_created impl ninf q d given ins out : let o := Cat d in
  Forall positive_dims ins -> importable o given ins -> out_dims o ins = Some out -> exists l, created impl ninf q o given ins out l.
Proof.
  intros o; subst o; intros PD (DF & Hd & G & Z3) EO. pose proof (pos3_all _ PD Z3) as P3.
  assert (EC : d <= 3 /\ exists s l, ins = s :: l /\ KerasSpec.all_joined (Z.to_nat (d - 1)) s l = Some out).
  { destruct ins as [|s l]; cbn [out_dims] in EO; [discriminate|]. inversion Z3 as [|? ? Zs _]; subst. rewrite Zs in EO. unfold KerasSpec.axis_of in EO.
    destruct (Z.leb_spec 1 d); [|lia]. destruct (Z.leb_spec d 3); cbn [andb] in EO.
    - split; [assumption|]. exists s, l. split; [reflexivity|exact EO].
    - destruct (Z.leb_spec (-(3)) d), (Z.leb_spec d (-1)); cbn [andb bind] in EO; try lia; discriminate. }
  destruct EC as (H3 & s & l & EL & EA). rewrite EL in P3. destruct (KerasOps3.all_joined_ok (d - 1) l ltac:(lia) _ _ P3 EA) as (A & B & C & -> & PA & PB & PC & F & ES).
  rewrite <- EL in *. clear EA EO. assert (NE : ins <> []) by (rewrite EL; discriminate). clear EL s l.
  assert (DM : forall ds, KerasOps3.pos3 ds -> (let '(c, h, w) := three_of ds in dim c h w d) = KerasOps3.len_at (d - 1) ds).
  { intros ds (h & w & c & -> & _). assert (Q : d = 1 \/ d = 2 \/ d = 3) by lia. destruct Q as [-> | [-> | ->]]; reflexivity. }
  assert (E5 : dim A B C d = fold_right (fun t s => let '(c, h, w) := t in dim c h w d + s) 0 (map three_of ins)).
  { etransitivity; [exact (DM [A; B; C] ltac:(exists A, B, C; auto))|]. rewrite ES. clear - P3 DM. induction P3 as [|e l He P3 IH]; [reflexivity|].
    cbn [map fold_right]. rewrite IH, <- (DM e He). destruct (three_of e) as [[c h] w]. reflexivity. }
  assert (EX : KerasSpec.axis_of d (zlen [A; B; C]) = Some (d - 1)).
  { unfold KerasSpec.axis_of. change (zlen [A; B; C]) with 3. destruct (Z.leb_spec 1 d), (Z.leb_spec d 3); try lia. reflexivity. }
  exists (plain (KConcat Rnum d A B C (map three_of ins))).
  constructor; cbn [lkind plain lact made_kind out_size out_channels].
  - intros st nm nms vs F2 FD _. pose proof (snd_all _ _ Z3 FD) as EN. pose proof (held_names _ _ _ F2) as HA.
    unfold visit, exported. cbn [c_target c_name c_args n_op n_name n_inputs n_given target arguments]. dispatch. destruct given as [|[|g]]; try lia. cbn [firstn].
    rewrite HA. cbn [bind]. rewrite EN.
    unfold import_cat. cbn [chw bind]. rewrite (chw_all _ P3). cbn [bind]. rewrite <- E5, size3, !Z.eqb_refl. destruct (Z.leb_spec 1 d); [|lia]. destruct (Z.leb_spec d 3); [|lia]. cbn [andb].
    match goal with |- context [forallb ?f ?l] => assert (E4 : forallb f l = true) end.
    { apply forallb_forall. intros c3 Hc. apply in_map_iff in Hc. destruct Hc as (ds & <- & Hds). rewrite Forall_forall in F. destruct (F _ Hds) as (h & w & c & -> & _ & _ & _ & Hh & Hw & Hc).
      cbn [three_of]. rewrite !andb_true_iff, !orb_true_iff, !Z.eqb_eq. lia. }
    rewrite E4. cbn [bind andb]. reflexivity.
  - apply positive3; lia.
  - reflexivity.
  - reflexivity.
  - rewrite size3. reflexivity.
  - reflexivity.
  - exact I.
  - exact I.
  - intros ts EI _. assert (ER : result (Cat d) ts [A; B; C] = KerasSpec.join_value d ts [A; B; C]) by (destruct ts as [|? [|? [|? ?]]]; reflexivity). rewrite ER. unfold KerasSpec.join_value. rewrite EX. cbn [KerasSpec.three].
    change (zlen [A; B; C]) with 3. replace (d - 1 + 3 - 3) with (d - 1) by lia. rewrite size3. split; [apply zlen_tab3; lia|].
    unfold meaning, meaning_with. cbn [plain lkind lact Activation.compute]. rewrite map_id, <- EI, shaped_combine. change (n0 Rnum) with 0%R.
    apply tab3_ext; try lia. intros i j k Hi Hj Hk. replace d with (d - 1 + 1) at 1 by lia.
    etransitivity; [apply (slice_joined (d - 1) A B C ts i j k 0); try assumption; try lia|].
    + apply Forall_forall. intros t Ht. rewrite Forall_forall in F. apply F. rewrite <- EI. apply in_map. exact Ht.
    + assert (EF : fold_right (fun t n => along (d - 1) t + n) 0 ts = KerasOps3.len_at (d - 1) [A; B; C]).
      { rewrite ES, <- EI. clear. induction ts as [|t ts IH]; [reflexivity|]. cbn [map fold_right]. rewrite IH. reflexivity. }
      rewrite EF. clear EF. assert (A3 : d = 1 \/ d = 2 \/ d = 3) by lia. clear - A3 Hi Hj Hk. destruct A3 as [-> | [-> | ->]];
      [change (1 - 1) with 0; change (KerasOps3.len_at 0 [A; B; C]) with A|change (2 - 1) with 1; change (KerasOps3.len_at 1 [A; B; C]) with B|
       change (3 - 1) with 2; change (KerasOps3.len_at 2 [A; B; C]) with C]; cbn [Z.eqb Pos.eqb]; lia.
    + rewrite !Z.sub_0_r. destruct (d - 1 =? 0), (d - 1 =? 1), (d - 1 =? 2); reflexivity.
  - intros _ _. split; [exact KerasOps.linear_ok|]. cbn [lkind plain]. split; [lia|]. split; [lia|]. split; [lia|]. split; [lia|]. split; [|split].
    + rewrite !map_map. apply map_ext_in. intros ds Hds. rewrite Forall_forall in P3. destruct (P3 _ Hds) as (h & w & c & -> & _). cbn [three_of]. apply size3.
    + apply Forall_forall. intros c3 Hc. apply in_map_iff in Hc. destruct Hc as (ds & <- & Hds). rewrite Forall_forall in F. destruct (F _ Hds) as (h & w & c & -> & ? & ? & ? & Hh & Hw & Hc).
      cbn [three_of]. lia.
    + exact E5.
Qed.

(** ** All the operations that become a layer. *)
Theorem op_created impl ninf q o given ins out : absorbed o = false -> passes o = false ->
  Forall positive_dims ins -> importable o given ins -> out_dims o ins = Some out -> exists l, created impl ninf q o given ins out l.
Proof.
  intros NA NP PD IM EO. destruct o; try discriminate.
  - apply linear_created; assumption.
  - apply conv_created; assumption.
  - apply add_created; assumption.
  - apply cat_created; assumption.
  - apply max_created; assumption.
  - apply adaptive_created; assumption.
  - destruct IM as (_ & []).
  - destruct IM as (_ & []).
  - destruct IM as (_ & []).
  - destruct IM as (_ & []).
Qed.

(** ** Activations. *)
Lemma activation_meaning ninf q k a xs : made_kind k = true ->
  meaning Rnum ninf q (mkLayer Rnum k a) xs = map (Activation.compute Rnum a) (meaning Rnum ninf q (mkLayer Rnum k Activation.LinearAct) xs).
Proof.
  intros MK. unfold meaning, meaning_with. cbn [lkind lact]. destruct k; try discriminate; destruct xs as [|x [|y xs]]; try reflexivity;
    cbn [Activation.compute]; unfold convolution, BroadcastProofs.broadcast_result; rewrite ?map_id, ?map_tab, ?map_tab3; reflexivity.
Qed.
Lemma activation_accepts k a a' ins : made_kind k = true -> accepts Rnum (mkLayer Rnum k a) ins -> act_supported Rnum a' -> accepts Rnum (mkLayer Rnum k a') ins.
Proof. intros MK (_ & H) HA. split; [exact HA|]. cbn [lkind] in *. destruct k; try discriminate; exact H. Qed.
Lemma relu_value x : map (Activation.compute Rnum (@Activation.ReLu Rnum)) x = map (Rmax 0) x.
Proof. apply map_ext. intros v. rewrite ExportOps.compute_intended by exact I. reflexivity. Qed.
Lemma clamp_value l h x : (l <= h)%R -> map (Activation.compute Rnum (@Activation.Clip Rnum h l)) x = map (clamp (Some l) (Some h)) x.
Proof.
  intros LH. apply map_ext. intros v. rewrite ExportOps.compute_intended; [reflexivity|]. cbn. unfold Rltb. destruct (Rlt_dec h l); [lra|reflexivity].
Qed.
Lemma clamp_supported l h : (l <= h)%R -> act_supported Rnum (@Activation.Clip Rnum h l).
Proof. intros LH. right. split; [exact KerasProofs.Rring|]. split; [exact Rnum_order|]. cbn. unfold Rltb. destruct (Rlt_dec h l); [lra|reflexivity]. Qed.
Lemma relu_supported : act_supported Rnum (@Activation.ReLu Rnum).
Proof. right. split; [exact KerasProofs.Rring|]. split; [exact Rnum_order|exact I]. Qed.

(** ** batch_norm *)
Lemma fused_value w b mean var eps x f :
  ((x - nthZ 0 mean f) / sqrt (nthZ 0 var f + eps) * nthZ 0 w f + nthZ 0 b f)%R =
  (x * scale_at w var eps f + ((0 - nthZ 0 mean f) * rsqrt (nthZ 0 var f + eps) * nthZ 0 w f + nthZ 0 b f))%R.
Proof. unfold scale_at, rsqrt, Rdiv. rewrite !Rmult_1_l. ring. Qed.
Lemma normalised_image w b mean var eps C H W (x : list R) : 0 < C -> 0 < H -> 0 < W -> zlen x = C * H * W ->
  normalised w b mean var eps (mkT [C; H; W] x) = tab3 C H W (fun f i j =>
    ((at3 0 H W x f i j - nthZ 0 mean f) / sqrt (nthZ 0 var f + eps) * or_one w f + or_zero b f)%R).
Proof.
  intros HC HH HW E. unfold normalised. cbn [dims vals skipn]. rewrite E. unfold size_of. cbn [fold_right]. rewrite Z.mul_1_r.
  etransitivity; [symmetry; refine (tab3_flat C H W _ _ _ _); lia|]. apply tab3_ext; try lia. intros f i j Hf Hi Hj. cbv beta.
  destruct (idx3_split H W f i j ltac:(lia) Hi Hj) as (E1 & _ & _). rewrite E1. reflexivity.
Qed.
Lemma bn_ring (t b r m u v : R) : (t * (u * r) + ((b - m) * r * u + v) = (t + b) * (u * r) + ((0 - m) * r * u + v))%R.
Proof. ring. Qed.
Lemma sum_scaled ic kh kw (f g : Z -> Z -> Z -> R) s : 0 <= ic -> 0 <= kh -> 0 <= kw ->
  (forall p h v, 0 <= p < ic -> 0 <= h < kh -> 0 <= v < kw -> f p h v = (g p h v * s)%R) ->
  nsum3 (N := Rnum) ic kh kw f = (nsum3 (N := Rnum) ic kh kw g * s)%R.
Proof.
  intros H1 H2 H3 E. unfold nsum3. etransitivity; [|symmetry; exact (nsum_mul_r Rnum KerasProofs.Rring _ s _)]. apply nsum_ext. intros k Hk.
  destruct (split3_range ic kh kw k Hk H1 H2 H3) as (_ & _ & _ & R1 & R2 & R3). apply E; assumption.
Qed.
Lemma fused_meaning ninf q impl l out given bn_w bn_b mean var eps : conv_layer impl l out -> lact Rnum l = Activation.LinearAct ->
  importable (BatchNorm bn_w bn_b mean var eps) given [out] ->
  exists l', (forall a, fuse_batch_norm (firstn given (arguments (BatchNorm bn_w bn_b mean var eps) [a])) l = Some l') /\
    conv_layer impl l' out /\ lact Rnum l' = Activation.LinearAct /\ out_size Rnum (lkind Rnum l') = out_size Rnum (lkind Rnum l) /\
    out_channels Rnum (lkind Rnum l') = out_channels Rnum (lkind Rnum l) /\ made_kind (lkind Rnum l') = true /\
    (forall ins, accepts Rnum l ins -> accepts Rnum l' ins) /\
    forall xs, zlen (meaning Rnum ninf q l xs) = size_of out -> meaning Rnum ninf q l' xs = normalised bn_w bn_b mean var eps (mkT out (meaning Rnum ninf q l xs)).
Proof.
  intros (c & w & b & EK & EO & P1 & P2 & P3 & P4 & P5 & P6 & ZW & ZB) LA (DF & C & H & W & u & v & EI & -> & -> & Zu & Zv & Zm & Zr).
  assert (EE : out = [C; H; W]) by congruence. rewrite EO in EE. injection EE as EC EH EW. rewrite <- EC in *. clear EI.
  destruct l as [k a]. cbn [lkind lact] in *. subst k a.
  set (w' := fused_weights (ic c * kh c * kw c) u var eps w). set (b' := fused_biases (nf c) u v mean var eps b).
  assert (ZB' : zlen b' = nf c) by (apply zlen_tab; lia).
  assert (ZW' : zlen w' = nf c * ic c * kh c * kw c) by (unfold w', fused_weights; rewrite zlen_tab by (apply zlen_nonneg); exact ZW).
  exists (mkLayer Rnum (KConv Rnum impl c w' b') Activation.LinearAct). split; [|split; [|split; [|split; [|split; [|split; [|split]]]]]].
  - intros a. cbn [defaults_omitted] in DF. do 9 (destruct given as [|given]; [lia|]). cbn [arguments map app firstn param number]. unfold fuse_batch_norm. cbn [lkind lact].
    rewrite Zu, Zv, Zm, Zr, !Z.eqb_refl. reflexivity.
  - exists c, w', b'. cbn [lkind]. repeat (split; [first [reflexivity|assumption]|]). assumption.
  - reflexivity.
  - reflexivity.
  - reflexivity.
  - reflexivity.
  - intros ins (HA & HK). split; [exact HA|]. cbn [lkind] in *. destruct HK as (E1 & E2). split; [exact E1|]. destruct E2 as (K1 & K2 & K3 & K4 & K5 & K6 & K7 & K8 & _ & _ & KK).
    unfold conv_supported. repeat (split; [assumption|]). exact KK.
  - intros xs ZX. unfold meaning, meaning_with in *. cbn [lkind lact Activation.compute] in *. destruct xs as [|x [|y xs]].
    + exfalso. rewrite EO, size3 in ZX. unfold zlen in ZX. cbn [length] in ZX. nia.
    + unfold convolution in *. rewrite map_id in ZX. rewrite !map_id. rewrite EO. etransitivity; [|symmetry; apply normalised_image; try lia; rewrite EO, size3 in ZX; exact ZX].
      apply tab3_ext; try lia. intros f i j Hf Hi Hj. cbv beta. set (val := fun f i j => _) in |- * at 2.
      replace (at3 0%R (oh c) (ow c) (tab3 (nf c) (oh c) (ow c) val) f i j) with (val f i j) by (symmetry; apply (at3_tab3 (A := R)); assumption).
      cbn [or_one or_zero]. rewrite fused_value. subst val. cbv beta. cbn [nadd Rnum]. unfold b', fused_biases. rewrite nthZ_tab by lia.
      match goal with |- (nsum3 ?a ?bb ?d ?f1 + _ = (nsum3 _ _ _ ?f2 + _) * ?s + _)%R => assert (ES : nsum3 (N := Rnum) a bb d f1 = (nsum3 (N := Rnum) a bb d f2 * s)%R) end.
      { apply sum_scaled; try lia. intros p h t Hp Hh Ht. cbn [nmul Rnum]. rewrite Rmult_assoc. f_equal. unfold w', fused_weights, at3.
        assert (HI : 0 <= idx3 (kh c) (kw c) (p + ic c * f) h t < nf c * ic c * kh c * kw c) by (apply idx3_range; nia).
        etransitivity; [apply (nthZ_tab (A := R)); rewrite <- ZW in HI; exact HI|]. f_equal. f_equal. symmetry. apply Z.div_unique with (idx3 (kh c) (kw c) p h t); [left; apply idx3_range; assumption|unfold idx3; ring]. }
      rewrite ES. unfold scale_at, rsqrt. change (n0 Rnum) with 0%R. exact (bn_ring _ _ _ _ _ _).
    + exfalso. rewrite EO, size3 in ZX. unfold zlen in ZX. cbn [length] in ZX. nia.
Qed.
