(** * The layer of each covered ONNX node computes the node (used by C72). *)
From Coq Require Import String.
From Coq Require Import ZArith List Lia Bool Reals Lra QArith.
Import ListNotations.
Open Scope list_scope.
Open Scope Z_scope.
From Verif Require Import CMem Tensor Num RealInst Graph Import LayerKinds LayerKindsProofs OnnxOps OnnxLinear OnnxWindow OnnxMisc.
From Verif Require Activation Broadcast Pooling Pad Movement Conv KerasOps ExportOps2.
From Verif Require Import OnnxSpec OnnxOpsProofs OnnxWindowSpec OnnxLinearSpec OnnxMiscSpec ExportSpec ExportDet OnnxModelSpec OnnxModel.
From Verif Require Import PropertiesActivation PropertiesOnnxOps PropertiesOnnxReduce PropertiesOnnxWindow PropertiesOnnxElementwise PropertiesOnnxLinear PropertiesOnnxPad PropertiesOnnxActivation PropertiesOnnxBypass OnnxModelOps OnnxModelOps2 OnnxModelOps3.

Ltac inv_node H :=
  inversion H; subst; clear H; try discriminate;
  try (match goal with G : unary_of (String _ _) _ = Some _ |- _ => exfalso; vm_compute in G; discriminate G end);
  try (match goal with G : variadic_of (String _ _) = Some _ |- _ => exfalso; vm_compute in G; discriminate G end);
  try (match goal with G : binary_of (String _ _) = Some _ |- _ => exfalso; vm_compute in G; discriminate G end);
  try (match goal with G : reduction_of (String _ _) = Some _ |- _ => exfalso; vm_compute in G; discriminate G end);
  try (match goal with G : (?s = _ /\ _) \/ (?s = _ /\ _) |- _ => exfalso; destruct G as [(G & _)|(G & _)]; subst; discriminate end).
Ltac inv_op H := 
  inversion H; subst; clear H; try discriminate;
  [ match goal with
    | G : ~ In _ _ |- _ => exfalso; apply G; cbn; tauto
    | G : node_holds _ _ _ _ |- _ => inv_node G
    end | .. ] || (match goal with G : node_holds _ _ _ _ |- _ => inv_node G end).


Lemma np_max_is l o : np_max l = Some o -> Broadcast.is_max l o.
Proof.
  assert (G : forall l a, In (fold_left Z.max l a) (a :: l) /\ Forall (fun b => b <= fold_left Z.max l a) (a :: l)).
  { clear. induction l as [|b l IH]; intros a; cbn [fold_left]; [split; [left; reflexivity|constructor; [lia|constructor]]|].
    destruct (IH (Z.max a b)) as (I1 & I2). inversion I2 as [|? ? J1 J2]; subst. split.
    - destruct I1 as [I1|I1]; [|right; right; exact I1]. rewrite <- I1. destruct (Z.max_dec a b) as [E|E]; rewrite E; [left|right; left]; reflexivity.
    - constructor; [lia|]. constructor; [lia|exact J2]. }
  destruct l as [|a l]; [discriminate|]. cbn [np_max]. intros E. injection E as <-. exact (G l a).
Qed.
Lemma one_or_fits v u : one_or v u = true -> Broadcast.fits_dim u v.
Proof. unfold one_or, Broadcast.fits_dim. intros E. apply orb_true_iff in E. destruct E as [E|E]; apply Z.eqb_eq in E; [left|right]; assumption. Qed.
Lemma slots_combine_fst {A} (l : list A) : map fst (List.combine (slots (List.length l)) l) = slots (List.length l).
Proof.
  unfold slots. generalize 1%nat. induction l as [|x l IH]; intros k; [reflexivity|]. cbn [List.length seq map List.combine fst]. f_equal. apply IH.
Qed.
Lemma slots_combine_snd {A B} (f : A -> B) (l : list A) n : n = List.length l -> map (fun i => f (snd i)) (List.combine (slots n) l) = map f l.
Proof.
  intros ->. unfold slots. generalize 1%nat. induction l as [|x l IH]; intros k; [reflexivity|]. cbn [List.length seq map List.combine snd]. f_equal. apply IH.
Qed.
Lemma slots_combine_both {A B} (f : A -> B) (l : list A) n : n = List.length l ->  map (fun i => (fst i, f (snd i))) (List.combine (slots n) l) = List.combine (slots n) (map f l).
Proof.
  intros ->. unfold slots. generalize 1%nat. induction l as [|x l IH]; intros k; [reflexivity|]. cbn [List.length seq map List.combine fst snd]. f_equal. apply IH.
Qed.
Lemma slots_combine_in {A} (l : list A) n b x : In (b, x) (List.combine (slots n) l) -> b <> Temp /\ In x l.
Proof. intros H. split; [|apply in_combine_r in H; exact H]. apply in_combine_l in H. pose proof (slots_not_temp n) as G. rewrite Forall_forall in G. apply G. exact H. Qed.
(** The three dimensions of an operand. *)
Definition d3 (raw : list Z) : Z * Z * Z := match get_shape raw with [_; c; h; w] => (c, h, w) | _ => (0, 0, 0) end.
Definition pos3 (s : Z * Z * Z) : Prop := let '(c, h, w) := s in 0 < c /\ 0 < h /\ 0 < w.
Definition vol (s : Z * Z * Z) : Z := let '(c, h, w) := s in c * h * w.
Lemma d3_ok raw : one_sample raw -> dims3 (get_shape raw) = Some (d3 raw) /\ pos3 (d3 raw) /\ prod (run_dims raw) = vol (d3 raw) /\ get_shape raw = [1; fst (fst (d3 raw)); snd (fst (d3 raw)); snd (d3 raw)].
Proof. intros H. destruct (extended_dims _ H) as (C & HH & W & P1 & P2 & P3 & E1 & E2). unfold d3. rewrite E1. cbn. auto. Qed.
Lemma d3_all (l : list (list Z)) : Forall one_sample l -> all_some (map (fun r => dims3 (get_shape r)) l) = Some (map d3 l).
Proof. induction 1 as [|r l H HF IH]; [reflexivity|]. cbn [map all_some]. destruct (d3_ok r H) as (-> & _). rewrite IH. reflexivity. Qed.

Lemma fold_first_ext (f g : R -> R -> R) (H : forall u v, f u v = g u v) (l : list R) :
  match l with [] => 0%R | v :: vs => fold_left f vs v end = match l with [] => 0%R | v :: vs => fold_left g vs v end.
Proof. destruct l as [|v vs]; [reflexivity|]. revert v. induction vs as [|u vs IH]; intros v; cbn [fold_left]; [reflexivity|]. rewrite <- H. apply IH. Qed.
Lemma elementwise_holds op a ins ods y : In op ["Add"; "Sub"; "Mul"; "Div"; "Max"; "Min"]%string -> op_holds op a ins (TFloat ods y) ->
  exists k f ops, broadcast_kind op = Some k /\ k <> Broadcast.BAvg /\ (forall u v, Broadcast.bop Rnum k u v = f u v) /\ ops <> [] /\
    ins = map (fun o => Some (TFloat (fst o) (snd o))) ops /\ broadcast_shape (map fst ops) ods /\ elementwise 0%R f ops ods y.
Proof.
  intros I H.
  assert (HN : node_holds op a ins (TFloat ods y)).
  { inversion H; subst; try assumption; exfalso; repeat (destruct I as [I|I]; [subst; discriminate|]); exact I. }
  clear H. destruct I as [<-|[<-|[<-|[<-|[<-|[<-|[]]]]]]].
  1-4: (inv_node HN; match goal with G : binary_of _ = Some _ |- _ => cbn in G; injection G as <- end;
        eexists _, _, [(da, xa); (db, xb)]; split; [reflexivity|]; split; [discriminate|]; split; [intros u v; reflexivity|]; split; [discriminate|]; split; [reflexivity|]; split; assumption).
  - inv_node HN; match goal with G : variadic_of _ = Some _ |- _ => cbn in G; injection G as <- end.
    exists Broadcast.BMax, Rmax, ops. split; [reflexivity|]. split; [discriminate|]. split; [|split; [assumption|split; [reflexivity|split; assumption]]]. intros u v. exact (ExportOps2.np_maximum_Rmax u v).
  - inv_node HN; match goal with G : variadic_of _ = Some _ |- _ => cbn in G; injection G as <- end.
    exists Broadcast.BMin, Rmin, ops. split; [reflexivity|]. split; [discriminate|]. split; [|split; [assumption|split; [reflexivity|split; assumption]]]. intros u v. exact (ExportOps2.np_minimum_Rmin u v).
Qed.
(** A scalar operand counts as a vector of one element. *)
Definition unit_dims (ds : list Z) : list Z := match ds with [] => [1] | _ => ds end.
Lemma unit_broadcast dss ods : (1 <= List.length ods)%nat -> broadcast_shape dss ods -> broadcast_shape (map unit_dims dss) ods.
Proof.
  intros L (B1 & (dm & D1 & D2) & B3).
  assert (AL : forall ds q, aligned_dim ods (unit_dims ds) q = aligned_dim ods ds q \/ (List.length ods <= q)%nat).
  { intros [|d ds] q; [|left; reflexivity]. destruct (Nat.ltb_spec q (List.length ods)); [left|right; exact H]. unfold aligned_dim. cbn [unit_dims List.length]. replace (q <? List.length ods - 0)%nat with true by (symmetry; apply Nat.ltb_lt; lia).
    destruct (Nat.ltb_spec q (List.length ods - 1)); [reflexivity|]. replace (q - (List.length ods - 1))%nat with 0%nat by lia. reflexivity. }
  split; [|split].
  - intros ds Hd. apply in_map_iff in Hd. destruct Hd as (ds' & <- & Hd). specialize (B1 _ Hd). destruct ds'; [cbn; exact L|exact B1].
  - exists dm. split; [|exact D2]. apply in_map_iff. exists dm. split; [|exact D1]. destruct dm; [cbn in D2; lia|reflexivity].
  - intros q Hq. destruct (B3 q Hq) as (C1 & dq & C2 & C3). split.
    + intros ds Hd. apply in_map_iff in Hd. destruct Hd as (ds' & <- & Hd). destruct (AL ds' q) as [->|X]; [apply C1; exact Hd|lia].
    + exists (unit_dims dq). split; [apply in_map; exact C2|]. destruct (AL dq q) as [->|X]; [exact C3|lia].
Qed.
Lemma unit_elementwise f (ops : list (list Z * list R)) ods y : (1 <= List.length ods)%nat -> elementwise 0%R f ops ods y ->
  elementwise 0%R f (map (fun o => (unit_dims (fst o), snd o)) ops) ods y.
Proof.
  intros L (Z1 & H). split; [exact Z1|]. intros idx HI. rewrite (H idx HI). rewrite map_map.
  rewrite (map_ext (fun x : list Z * list R => el 0%R (fst (unit_dims (fst x), snd x)) (snd (unit_dims (fst x), snd x)) (aligned (fst (unit_dims (fst x), snd x)) idx)) (fun o => el 0%R (fst o) (snd o) (aligned (fst o) idx))); [reflexivity|].
  intros ([|d ds] & x); [|reflexivity]. cbn [fst snd unit_dims]. pose proof (inside_len _ _ HI) as LI. unfold aligned. cbn [List.length].
  assert (E : exists z, skipn (List.length idx - 1) idx = [z]).
  { destruct (skipn (List.length idx - 1) idx) as [|z [|z' r]] eqn:E; [| exists z; reflexivity|]; apply (f_equal (@List.length Z)) in E; rewrite skipn_length in E; cbn [List.length] in E; lia. }
  destruct E as (z & ->). reflexivity.
Qed.
Section Ops.
  Variables (m : source) (env : string -> option tensor).
  Hypothesis F : run_facts m env.
  Notation cp := (cp m env F).

  Lemma elementwise_layer op a is o k f (rs : string -> list Z) : k <> Broadcast.BAvg -> (forall u v, Broadcast.bop Rnum k u v = f u v) -> is <> [] -> produced m o ->
    import_layer SixLoops m (mkONode op a is o) =
      (L <- create_elementwise false (map rs is) (raw_shape m o) ;; Some (is, plain (KBroadcast Rnum k (map triple (ew_shapes L)) None (triple (ew_out L))))) ->
    (forall nm, In nm is -> one_sample (rs nm) /\ zlen (data env nm) = prod (run_dims (rs nm))) ->
    broadcast_shape (map (fun nm => run_dims (rs nm)) is) (run_dims (raw_shape m o)) ->
    elementwise 0%R f (map (fun nm => (run_dims (rs nm), data env nm)) is) (run_dims (raw_shape m o)) (data env o) ->
    exists rec L, good m env (mkONode op a is o) rec L.
  Proof.
    intros HK HF NE Po EI HI HB HV. pose proof (cp _ Po) as Co.
    set (n := List.length is).
    set (ops := List.combine (slots n) (map (fun nm => (rs nm, data env nm)) is)).
    assert (LN : n = List.length (map (fun nm => (rs nm, data env nm)) is)) by (rewrite map_length; reflexivity).
    assert (O1 : map (fun o => fst (snd o)) ops = map rs is) by (unfold ops; rewrite (slots_combine_snd fst) by exact LN; rewrite map_map; reflexivity).
    assert (O2 : map (fun o => run_dims (fst (snd o))) ops = map (fun nm => run_dims (rs nm)) is) by (unfold ops; rewrite (slots_combine_snd (fun p => run_dims (fst p))) by exact LN; rewrite map_map; reflexivity).
    assert (O3 : map (fun o => (run_dims (fst (snd o)), snd (snd o))) ops = map (fun nm => (run_dims (rs nm), data env nm)) is).
    { unfold ops. rewrite (slots_combine_snd (fun p => (run_dims (fst p), snd p))) by exact LN. rewrite map_map. reflexivity. }
    assert (O4 : map (fun o => (fst o, snd (snd o))) ops = List.combine (slots n) (map (data env) is)).
    { unfold ops. rewrite (slots_combine_both snd) by exact LN. rewrite map_map. reflexivity. }
    assert (O5 : map fst ops = slots n) by (unfold ops; rewrite LN; apply slots_combine_fst).
    destruct (C61_elementwise Rnum k ops (raw_shape m o) HK) as (L & EL & OK).
    { intros E. apply (f_equal (@List.length _)) in E. unfold ops in E. rewrite combine_length, slots_length, <- LN, Nat.min_id in E. destruct is; [congruence|discriminate E]. }
    { apply (cp_sample _ _ _ Co). }
    { apply Forall_forall. intros (b & r & x) Hin. apply slots_combine_in in Hin. destruct Hin as (NT & Hin). apply in_map_iff in Hin. destruct Hin as (nm & E & Hnm). injection E as <- <-. cbn [fst snd]. split; [exact NT|]. apply HI. exact Hnm. }
    { exact (eq_ind_r (fun l => broadcast_shape l (run_dims (raw_shape m o))) HB O2). }
    assert (EL' : create_elementwise false (map rs is) (raw_shape m o) = Some L) by exact (eq_ind _ (fun l => create_elementwise false l (raw_shape m o) = Some L) EL _ O1).
    clear EL. rename EL' into EL. rewrite EL in EI. cbn [bind] in EI.
    assert (FS : Forall one_sample (map rs is)) by (apply Forall_forall; intros r Hr; apply in_map_iff in Hr; destruct Hr as (nm & <- & Hnm); apply HI; exact Hnm).
    destruct (d3_ok _ (cp_sample _ _ _ Co)) as (DO & PO & VO & GO).
    assert (FL : ew_shapes L = map d3 (map rs is) /\ ew_out L = d3 (raw_shape m o) /\
       np_max (map (pick3 1) (ew_shapes L)) = Some (fst (fst (d3 (raw_shape m o)))) /\ np_max (map (pick3 2) (ew_shapes L)) = Some (snd (fst (d3 (raw_shape m o)))) /\
       np_max (map (pick3 3) (ew_shapes L)) = Some (snd (d3 (raw_shape m o))) /\
       Forall (fun s => one_or (fst (fst (d3 (raw_shape m o)))) (pick3 1 s) = true /\ one_or (snd (fst (d3 (raw_shape m o)))) (pick3 2 s) = true /\ one_or (snd (d3 (raw_shape m o))) (pick3 3 s) = true) (ew_shapes L)).
    { unfold create_elementwise in EL. rewrite (d3_all _ FS), DO in EL. cbn [bind] in EL. destruct (d3 (raw_shape m o)) as ((OC & OH) & OW) eqn:ED.
      match type of EL with (if ?b then _ else _) = _ => destruct b eqn:EB; [|discriminate] end. apply some_inj in EL. subst L. cbn [ew_shapes ew_out fst snd].
      repeat rewrite andb_true_iff in EB. destruct EB as ((((_ & B1) & B2) & B3) & B4). 
      assert (SE : forall ov v, is_some_eq ov v = true -> ov = Some v) by (intros [u|] v E; cbn in E; [apply Z.eqb_eq in E; congruence|discriminate]).
      split; [reflexivity|]. split; [reflexivity|]. split; [apply SE; exact B1|]. split; [apply SE; exact B2|]. split; [apply SE; exact B3|].
      apply Forall_forall. intros s Hs. rewrite forallb_forall in B4. specialize (B4 s Hs). repeat rewrite andb_true_iff in B4. tauto. }
    destruct FL as (FL1 & FL2 & M1 & M2 & M3 & FT).
    destruct (d3 (raw_shape m o)) as ((OC & OH) & OW) eqn:ED. cbn [fst snd] in *.
    exists is, (plain (KBroadcast Rnum k (map triple (ew_shapes L)) None (triple (ew_out L)))). apply good_of; [exact EI|intros z Hz; exact Hz|reflexivity| | |].
    - split; [apply lin_supported|]. cbn [lkind plain]. unfold broadcast_supported. split; [|split; [|split; [|discriminate]]].
      + rewrite FL1. destruct is; [congruence|discriminate].
      + rewrite app_nil_r, FL2. unfold Broadcast.accepted_shapes. split; [|split; [|split; [|split]]].
        * rewrite FL1. apply Forall_forall. intros s Hs. rewrite !in_map_iff in Hs. destruct Hs as (t & <- & Ht). apply in_map_iff in Ht. destruct Ht as (r & <- & Hr). rewrite Forall_forall in FS. destruct (d3_ok r (FS r Hr)) as (_ & P & _).
          unfold Broadcast.positive. destruct (d3 r) as ((c & h) & w). exact P.
        * apply Forall_forall. intros s Hs. apply in_map_iff in Hs. destruct Hs as (t & <- & Ht). rewrite Forall_forall in FT. destruct (FT t Ht) as (T1 & T2 & T3). destruct t as ((c & h) & w). 
          split; [exact (one_or_fits _ _ T1)|]. split; [exact (one_or_fits _ _ T2)|exact (one_or_fits _ _ T3)].
        * rewrite map_map. replace (map (fun x => Broadcast.sC (triple x)) (ew_shapes L)) with (map (pick3 1) (ew_shapes L)) by (apply map_ext; intros ((? & ?) & ?); reflexivity). apply np_max_is. exact M1.
        * rewrite map_map. replace (map (fun x => Broadcast.sH (triple x)) (ew_shapes L)) with (map (pick3 2) (ew_shapes L)) by (apply map_ext; intros ((? & ?) & ?); reflexivity). apply np_max_is. exact M2.
        * rewrite map_map. replace (map (fun x => Broadcast.sW (triple x)) (ew_shapes L)) with (map (pick3 3) (ew_shapes L)) by (apply map_ext; intros ((? & ?) & ?); reflexivity). apply np_max_is. exact M3.
      + rewrite FL1, !map_map. apply map_ext_in. intros nm Hnm. destruct (HI nm Hnm) as (S & Z0). rewrite Z0. destruct (d3_ok _ S) as (_ & _ & -> & _). destruct (d3 (rs nm)) as ((c & h) & w). reflexivity.
    - cbn [lkind plain out_size n_output]. rewrite FL2, (cp_size _ _ _ Co), VO. reflexivity.
    - intros ninf q. destruct (OK (Out 0) (fun v => v) ltac:(discriminate)) as (y & HY & LY). rewrite map_id in LY. cbn [n_output]. fold n.
      pose proof (eq_ind _ (fun l => elementwise (n0 Rnum) (Broadcast.bop Rnum k) l (run_dims (raw_shape m o)) y) HY _ O3) as HY1. cbv beta in HY1. clear HY. rename HY1 into HY.
      pose proof (eq_ind _ (fun l => layer_ok _ l (Out 0) (zlen y) (zlen y) y) LY _ O4) as LY1. cbv beta in LY1. clear LY.
      pose proof (eq_ind _ (fun l => layer_ok (Broadcast.broadcast_c Rnum k (List.combine l (map to_shape (ew_shapes L))) None (Out 0) (to_shape (ew_out L)) (fun v => v)) _ (Out 0) (zlen y) (zlen y) y) LY1 _ O5) as LY. cbv beta in LY. clear LY1.
      assert (EY : data env o = y).
      { eapply (elementwise_det f); [apply run_sized; apply (cp_sample _ _ _ Co)|exact HV|]. destruct HY as (Z1 & HY). split; [exact Z1|]. intros idx HIx. exact (eq_trans (HY idx HIx) (fold_first_ext _ _ HF _)). }
      rewrite EY. eexists _, _. cbn [gen_code lkind plain lact]. replace (map triple (ew_shapes L)) with (map to_shape (ew_shapes L)) by reflexivity. exact LY.
  Qed.

  Lemma inputs_are is (ops : list (list Z * list R)) : Forall (computed m env) is -> map env is = map (fun o => Some (TFloat (fst o) (snd o))) ops ->
    ops = map (fun nm => (run_dims (raw_shape m nm), data env nm)) is.
  Proof.
    intros HF. revert ops. induction HF as [|nm is HC HF IH]; intros [|(ds & x) ops] E; try discriminate; [reflexivity|]. cbn [map fst snd] in E. injection E as E1 E2. cbn [map]. destruct (computed_is _ _ _ _ _ HC E1) as (-> & ->). f_equal. apply IH. exact E2.
  Qed.
  Lemma operands_layer op a is o : In op ["Sub"; "Mul"; "Div"; "Max"; "Min"]%string -> Forall (produced m) is -> produced m o ->
    op_holds op a (map env is) (TFloat (run_dims (raw_shape m o)) (data env o)) ->
    exists rec L, good m env (mkONode op a is o) rec L.
  Proof.
    intros I FP Po H. destruct (elementwise_holds op a _ _ _ (or_intror I) H) as (k & f & ops & EK & NA & EF & NE & EO & HB & HV).
    assert (FC : Forall (computed m env) is) by (eapply Forall_impl; [|exact FP]; intros nm; apply cp).
    apply inputs_are in EO; [|exact FC]. subst ops.
    assert (NI : is <> []) by (intros ->; apply NE; reflexivity).
    eapply (elementwise_layer op a is o k f (raw_shape m) NA EF NI Po).
    - assert (NF : existsb (is_initialiser m) is = false).
      { apply not_true_iff_false. intros E. apply existsb_exists in E. destruct E as (nm & Hn & E). rewrite Forall_forall in FC. unfold is_initialiser in E. rewrite (cp_init _ _ _ (FC nm Hn)) in E. discriminate. }
      destruct is as [|i0 rest]; [congruence|]. unfold import_layer. cbn [n_op n_attrs n_inputs n_output].
      destruct I as [<-|[<-|[<-|[<-|[<-|[]]]]]]; cbn [String.eqb Ascii.eqb Bool.eqb]; rewrite EK; cbn in EK; injection EK as <-; try rewrite NF; reflexivity.
    - intros nm Hn. rewrite Forall_forall in FC. split; [apply (cp_sample _ _ _ (FC nm Hn))|apply (cp_size _ _ _ (FC nm Hn))].
    - rewrite map_map in HB. exact HB.
    - exact HV.
  Qed.
  Lemma run_positive ds : Forall (fun n => 0 < n) ds -> run_dims ds = ds.
  Proof. unfold run_dims. intros H. rewrite <- (map_id ds) at 2. apply map_ext_in. intros n Hn. rewrite Forall_forall in H. specialize (H n Hn). destruct (Z.eqb_spec n 0); lia. Qed.
  Lemma add_layer a is o : Forall (operand_ok m) is -> produced m o ->
    op_holds "Add" a (map env is) (TFloat (run_dims (raw_shape m o)) (data env o)) ->
    exists rec L, good m env (mkONode "Add" a is o) rec L.
  Proof.
    intros FP Po H. destruct (elementwise_holds "Add" a _ _ _ (or_introl eq_refl) H) as (k & f & ops & EK & NA & EF & NE & EO & HB & HV).
    pose proof (cp _ Po) as Co.
    assert (LO : (1 <= List.length (run_dims (raw_shape m o)))%nat) by (rewrite run_dims_length; destruct (cp_sample _ _ _ Co) as (L & _); unfold zlen in L; lia).
    assert (X : (forall nm, In nm is -> one_sample (add_shape m nm) /\ zlen (data env nm) = prod (run_dims (add_shape m nm))) /\
                map (fun o => (unit_dims (fst o), snd o)) ops = map (fun nm => (run_dims (add_shape m nm), data env nm)) is).
    { clear -FP EO F. revert ops EO. induction FP as [|nm is HC HF IH]; intros [|(ds & x) ops] E; try discriminate; [split; [intros nm []|reflexivity]|].
      cbn [map fst snd] in E. injection E as E1 E2. destruct (IH ops E2) as (I1 & I2).
      assert (Y : one_sample (add_shape m nm) /\ zlen (data env nm) = prod (run_dims (add_shape m nm)) /\ unit_dims ds = run_dims (add_shape m nm) /\ data env nm = x).
      { destruct HC as [HC|(ds' & x' & HS & (D1 & D2 & D3))].
        - apply cp in HC. assert (EA : add_shape m nm = raw_shape m nm). { unfold add_shape. rewrite (cp_init _ _ _ HC). destruct (raw_shape m nm) eqn:ER; [|reflexivity]. destruct (cp_sample _ _ _ HC) as (L & _). rewrite ER in L. cbn in L. lia. }
          rewrite EA. destruct (computed_is _ _ _ _ _ HC E1) as (DI & DX). split; [apply (cp_sample _ _ _ HC)|]. split; [apply (cp_size _ _ _ HC)|]. split; [|exact DX]. rewrite DI. destruct ds; [|reflexivity].
          apply (f_equal (@List.length Z)) in DI. rewrite run_dims_length in DI. destruct (cp_sample _ _ _ HC) as (L & _). unfold zlen in L. cbn in DI. lia.
        - destruct (rf_stored _ _ F _ _ HS) as (EI & EE). rewrite EE in E1. injection E1 as -> ->. 
          assert (EA : add_shape m nm = unit_dims ds) by (unfold add_shape; rewrite EI; cbn; destruct ds; reflexivity). rewrite EA.
          assert (PU : Forall (fun n => 0 < n) (unit_dims ds)) by (destruct ds; [constructor; [lia|constructor]|exact D1]).
          assert (EX : data env nm = x) by (unfold data; rewrite EE; reflexivity). rewrite EX, (run_positive _ PU). destruct (rf_sized _ _ F _ _ EE) as (_ & ZZ).
          split; [|split; [rewrite ZZ; destruct ds; reflexivity|split; reflexivity]].
          split; [unfold zlen; destruct ds; cbn [unit_dims List.length] in *; lia|]. split; [eapply Forall_impl; [|exact PU]; cbv beta; intros; lia|]. rewrite (run_positive _ PU). unfold zlen. destruct ds as [|d0 ds]; cbn [unit_dims] in *; [cbn; lia|]. intros L4. apply D3. lia. }
      destruct Y as (Y1 & Y2 & Y3 & Y4). split; [intros nm' [<-|Hn]; [split; assumption|apply I1; exact Hn]|]. cbn [map fst snd]. rewrite I2, Y3, Y4. reflexivity. }
    destruct X as (X1 & X2).
    assert (NI : is <> []) by (intros ->; destruct ops; [apply NE; reflexivity|discriminate X2]).
    eapply (elementwise_layer "Add" a is o k f (add_shape m) NA EF NI Po).
    - destruct is as [|i0 rest]; [congruence|]. unfold import_layer. cbn [n_op n_attrs n_inputs n_output]. cbn [String.eqb Ascii.eqb Bool.eqb]. rewrite EK. cbn in EK. injection EK as <-. reflexivity.
    - exact X1.
    - apply (unit_broadcast _ _ LO) in HB. rewrite map_map in HB. apply (f_equal (map fst)) in X2. rewrite !map_map in X2. cbn [fst] in X2. rewrite <- X2. exact HB.
    - rewrite <- X2. apply unit_elementwise; assumption.
  Qed.
End Ops.
