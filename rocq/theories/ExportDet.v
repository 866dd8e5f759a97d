(** * An ONNX node has at most one output for given inputs: the specification of
    the operators in ExportSpec.v is functional (used by C68). *)
From Coq Require Import String.
From Coq Require Import ZArith List Lia Bool Reals Lra.
Import ListNotations.
Open Scope Z_scope.
From Verif Require Import CMem Tensor Num RealInst Reduce OnnxSpec OnnxOpsProofs OnnxWindowSpec OnnxLinearSpec OnnxMiscSpec ExportSpec.

Definition sized (ds : list Z) : Prop := Forall (fun n => 0 <= n) ds.

Lemma nth_list_ext {V} (d : V) y y' : zlen y = zlen y' -> (forall k, 0 <= k < zlen y -> nthZ d y k = nthZ d y' k) -> y = y'.
Proof.
  intros L H. apply list_ext; [exact L|]. intros k Hk. rewrite (rdl_nthZ d y k Hk), (rdl_nthZ d y' k ltac:(lia)), (H k Hk). reflexivity.
Qed.
Lemma prod_nonneg ds : sized ds -> 0 <= prod ds.
Proof. induction 1; cbn [prod]; [lia|nia]. Qed.
Lemma unoffset ds : sized ds -> forall k, 0 <= k < prod ds -> exists idx, inside ds idx /\ offset ds idx = k.
Proof.
  induction 1 as [|n ds Hn HS IH]; intros k Hk; cbn [prod] in Hk.
  - exists []. split; [constructor|cbn; lia].
  - pose proof (prod_nonneg ds HS) as P. assert (PP : 0 < prod ds) by nia.
    destruct (IH (k mod prod ds)) as (idx & HI & HO); [apply Z.mod_pos_bound; exact PP|].
    exists (k / prod ds :: idx). split.
    + constructor; [|exact HI]. split; [apply Z.div_pos; lia|]. apply Z.div_lt_upper_bound; nia.
    + cbn [offset]. rewrite HO. pose proof (Z.div_mod k (prod ds)). lia.
Qed.
Lemma el_ext {V} (d : V) ds y y' : sized ds -> zlen y = prod ds -> zlen y' = prod ds ->
  (forall idx, inside ds idx -> el d ds y idx = el d ds y' idx) -> y = y'.
Proof.
  intros S L L' H. apply (nth_list_ext d); [lia|]. intros k Hk. destruct (unoffset ds S k ltac:(lia)) as (idx & HI & HO).
  specialize (H idx HI). unfold el in H. rewrite HO in H. exact H.
Qed.
Lemma at3_ext {V} (d : V) C H W y y' : 0 <= C -> 0 <= H -> 0 <= W -> zlen y = C * H * W -> zlen y' = C * H * W ->
  (forall c i j, 0 <= c < C -> 0 <= i < H -> 0 <= j < W -> at3 d H W y c i j = at3 d H W y' c i j) -> y = y'.
Proof.
  intros HC HH HW L L' E. apply (el_ext d [C; H; W]); [repeat constructor; assumption|cbn [prod]; lia|cbn [prod]; lia|].
  intros idx HI. inversion HI as [|? c ? ? H1 HI1]; subst. inversion HI1 as [|? i ? ? H2 HI2]; subst. inversion HI2 as [|? j ? ? H3 HI3]; subst. inversion HI3; subst.
  specialize (E c i j H1 H2 H3). unfold at3, idx3 in E. unfold el. cbn [offset prod].
  replace (c * (H * (W * 1)) + (i * (W * 1) + (j * 1 + 0))) with (j + W * (i + H * c)) by ring. exact E.
Qed.

(** ** Values. *)
Fixpoint pos_of (q : nat) (l : list nat) : nat := match l with [] => 0%nat | a :: r => if Nat.eqb a q then 0%nat else S (pos_of q r) end.
Lemma pos_of_in q l : In q l -> (pos_of q l < List.length l)%nat /\ nth (pos_of q l) l 0%nat = q.
Proof.
  induction l as [|a l IH]; intros H; [destruct H|]. cbn [pos_of]. destruct (Nat.eqb_spec a q) as [->|NE]; [split; [cbn; lia|reflexivity]|].
  destruct H as [H|H]; [congruence|]. destruct (IH H) as (H1 & H2). split; [cbn; lia|exact H2].
Qed.
Lemma pos_of_nth l : NoDup l -> forall i, (i < List.length l)%nat -> pos_of (nth i l 0%nat) l = i.
Proof.
  intros ND i Hi. destruct (pos_of_in (nth i l 0%nat) l (nth_In l 0%nat Hi)) as (H1 & H2).
  exact (proj1 (NoDup_nth l 0%nat) ND _ _ H1 Hi H2).
Qed.
Lemma inside_len ds idx : inside ds idx -> List.length ds = List.length idx.
Proof. intros H. induction H; cbn; congruence. Qed.
Lemma inside_nth ds idx : List.length ds = List.length idx -> (forall i, (i < List.length ds)%nat -> 0 <= coord i idx < coord i ds) -> inside ds idx.
Proof.
  revert idx. induction ds as [|n ds IH]; intros [|k idx] L H; try discriminate; constructor.
  - exact (H 0%nat ltac:(cbn; lia)).
  - apply IH; [injection L; auto|]. intros i Hi. exact (H (S i) ltac:(cbn; lia)).
Qed.
Lemma inside_coord ds idx : inside ds idx -> forall i, (i < List.length ds)%nat -> 0 <= coord i idx < coord i ds.
Proof. intros H. induction H as [|n k ds idx HK H IH]; intros i Hi; cbn in Hi; [lia|]. destruct i as [|i]; [exact HK|]. apply IH. lia. Qed.
Lemma coord_map {A} (f : A -> Z) (d : A) l i : (i < List.length l)%nat -> coord i (map f l) = f (nth i l d).
Proof. intros H. unfold coord. rewrite (nth_indep _ 0 (f d)) by (rewrite map_length; exact H). apply map_nth. Qed.

Lemma unpermute ds perm jdx : NoDup perm -> List.length perm = List.length ds -> Forall (fun p => (p < List.length ds)%nat) perm ->
  inside (permuted perm ds) jdx -> exists idx, inside ds idx /\ permuted perm idx = jdx.
Proof.
  intros ND LP FP HJ. pose proof (inside_len _ _ HJ) as LJ. unfold permuted in LJ. rewrite map_length in LJ.
  set (idx := map (fun q => coord (pos_of q perm) jdx) (seq 0 (List.length ds))).
  assert (CI : forall q, (q < List.length ds)%nat -> coord q idx = coord (pos_of q perm) jdx).
  { intros q Hq. unfold idx. rewrite (coord_map _ 0%nat) by (rewrite seq_length; exact Hq). rewrite seq_nth by exact Hq. reflexivity. }
  exists idx. split.
  - apply inside_nth; [unfold idx; rewrite map_length, seq_length; reflexivity|]. intros q Hq. rewrite (CI q Hq).
    assert (IN : In q perm).
    { apply (NoDup_length_incl (l' := seq 0 (List.length ds)) ND); [rewrite seq_length; lia| |apply in_seq; lia].
      intros p Hp. apply in_seq. rewrite Forall_forall in FP. specialize (FP p Hp). lia. }
    destruct (pos_of_in q perm IN) as (H1 & H2).
    pose proof (inside_coord _ _ HJ (pos_of q perm)) as B. unfold permuted in B. rewrite map_length in B. specialize (B H1).
    rewrite (coord_map _ 0%nat) in B by exact H1. rewrite H2 in B. exact B.
  - unfold permuted. apply (nth_ext _ _ 0 0); [rewrite map_length; exact LJ|]. intros i Hi. rewrite map_length in Hi.
    transitivity (coord i (map (fun p => coord p idx) perm)); [reflexivity|]. rewrite (coord_map _ 0%nat) by exact Hi.
    rewrite CI by (rewrite Forall_forall in FP; apply FP; apply nth_In; exact Hi). rewrite pos_of_nth by assumption. reflexivity.
Qed.
Lemma transposed_det ds perm (x y y' : list R) : sized (permuted perm ds) -> NoDup perm -> List.length perm = List.length ds ->
  Forall (fun p => (p < List.length ds)%nat) perm -> transposed_nd 0%R ds perm x y -> transposed_nd 0%R ds perm x y' -> y = y'.
Proof.
  intros S ND LP FP (L & E) (L' & E'). apply (el_ext 0%R (permuted perm ds)); [exact S|exact L|exact L'|]. intros jdx HJ.
  destruct (unpermute ds perm jdx ND LP FP HJ) as (idx & HI & <-). rewrite (E idx HI), (E' idx HI). reflexivity.
Qed.
Lemma flattened_det ds k (x y y' : list R) : sized ds -> flattened 0%R ds k x y -> flattened 0%R ds k x y' -> y = y'.
Proof.
  intros S (L & E) (L' & E'). assert (S1 : sized (firstn k ds)) by (apply Forall_forall; intros n Hn; unfold sized in S; rewrite Forall_forall in S; apply S; rewrite <- (firstn_skipn k ds); apply in_or_app; left; exact Hn).
  assert (S2 : sized (skipn k ds)) by (apply Forall_forall; intros n Hn; unfold sized in S; rewrite Forall_forall in S; apply S; rewrite <- (firstn_skipn k ds); apply in_or_app; right; exact Hn).
  apply (el_ext 0%R [prod (firstn k ds); prod (skipn k ds)]); [repeat constructor; apply prod_nonneg; assumption|exact L|exact L'|]. intros jdx HJ.
  inversion HJ as [|? a ? ? H1 HJ1]; subst. inversion HJ1 as [|? b ? ? H2 HJ2]; subst. inversion HJ2; subst.
  destruct (unoffset _ S1 a H1) as (ia & Ia & Oa). destruct (unoffset _ S2 b H2) as (ib & Ib & Ob).
  assert (HI : inside ds (ia ++ ib)) by (unfold inside; rewrite <- (firstn_skipn k ds); apply Forall2_app; assumption).
  pose proof (inside_len _ _ Ia) as La. pose proof (inside_len _ _ HI) as Lab. rewrite app_length in Lab. rewrite firstn_length in La.
  assert (F : firstn k (ia ++ ib) = ia /\ skipn k (ia ++ ib) = ib).
  { destruct (Nat.le_gt_cases k (List.length ds)) as [C|C].
    - assert (k = List.length ia) by lia. subst k. split; [rewrite firstn_app, Nat.sub_diag, firstn_all; cbn; apply app_nil_r|rewrite skipn_app, Nat.sub_diag, skipn_all; reflexivity].
    - pose proof (inside_len _ _ Ib) as Lb. rewrite skipn_length in Lb. assert (ib = []) by (destruct ib; [reflexivity|cbn in Lb; lia]). subst ib. rewrite app_nil_r. split; [apply firstn_all2; lia|apply skipn_all2; lia]. }
  destruct F as (F1 & F2). specialize (E _ HI). specialize (E' _ HI). rewrite F1, F2, Oa, Ob in E, E'. rewrite E, E'. reflexivity.
Qed.

(** Concat. *)
Lemma coord_set_at p v l : (p < List.length l)%nat -> coord p (set_at p v l) = v.
Proof. revert p. induction l as [|a l IH]; intros [|p] H; cbn in H; try lia; [reflexivity|]. apply IH. lia. Qed.
Lemma coord_set_other p q v l : p <> q -> coord q (set_at p v l) = coord q l.
Proof. revert p q. induction l as [|a l IH]; intros [|p] [|q] H; try reflexivity; try congruence. apply IH. congruence. Qed.
Lemma set_at_twice {A} p (u v : A) l : set_at p v (set_at p u l) = set_at p v l.
Proof. revert p. induction l as [|a l IH]; intros [|p]; cbn; try reflexivity. rewrite IH. reflexivity. Qed.
Lemma which_operand {V} p (ops : list (list Z * list V)) c : 0 <= c < fold_right Z.add 0 (map (fun o => coord p (fst o)) ops) ->
  exists before o after, ops = before ++ o :: after /\ 0 <= c - fold_right Z.add 0 (map (fun o => coord p (fst o)) before) < coord p (fst o).
Proof.
  revert c. induction ops as [|o ops IH]; intros c H; cbn [map fold_right] in H; [lia|].
  destruct (Z_lt_le_dec c (coord p (fst o))) as [L|L].
  - exists [], o, ops. split; [reflexivity|]. cbn. lia.
  - destruct (IH (c - coord p (fst o)) ltac:(lia)) as (b & o' & r & -> & B). exists (o :: b), o', r. split; [reflexivity|]. cbn [map fold_right]. lia.
Qed.
Lemma concat_det p ops ods ods' (y y' : list R) : ops <> [] -> sized ods ->
  (p < List.length ods)%nat -> (p < List.length ods')%nat ->
  Forall (fun o => fst o = set_at p (coord p (fst o)) ods) ops -> Forall (fun o => fst o = set_at p (coord p (fst o)) ods') ops ->
  coord p ods = fold_right Z.add 0 (map (fun o => coord p (fst o)) ops) -> coord p ods' = fold_right Z.add 0 (map (fun o => coord p (fst o)) ops) ->
  concatenated 0%R p ops ods y -> concatenated 0%R p ops ods' y' -> ods' = ods /\ y' = y.
Proof.
  intros NE S P P' F F' C C' (L & E) (L' & E').
  assert (OD : ods' = ods).
  { destruct ops as [|o ops]; [congruence|]. inversion F as [|? ? G1 _]; subst. inversion F' as [|? ? G2 _]; subst.
    assert (LL : List.length ods = List.length ods').
    { apply (f_equal (@List.length Z)) in G1, G2. rewrite set_at_length in G1, G2. congruence. }
    apply (nth_ext _ _ 0 0); [auto|]. intros i Hi. destruct (Nat.eq_dec p i) as [<-|NEi].
    - transitivity (coord p ods'); [reflexivity|]. rewrite C'. rewrite <- C. reflexivity.
    - transitivity (coord i ods'); [reflexivity|]. rewrite <- (coord_set_other p i (coord p (fst o)) ods' NEi), <- G2. rewrite G1. apply coord_set_other. exact NEi. }
  subst ods'. split; [reflexivity|]. apply (el_ext 0%R ods); [exact S|exact L'|exact L|]. intros jdx HJ.
  pose proof (inside_coord _ _ HJ p P) as B. rewrite C in B. destruct (which_operand p ops (coord p jdx) B) as (before & (ds, x) & after & EO & B').
  set (off := fold_right Z.add 0 (map (fun o => coord p (fst o)) before)) in *. cbn [fst] in B'.
  assert (FD : ds = set_at p (coord p ds) ods) by (rewrite Forall_forall in F; apply (F (ds, x)); rewrite EO; apply in_or_app; right; left; reflexivity).
  pose proof (inside_len _ _ HJ) as LJ.
  assert (HI : inside ds (set_at p (coord p jdx - off) jdx)).
  { apply inside_nth; [rewrite set_at_length, FD, set_at_length; exact LJ|]. intros i Hi. destruct (Nat.eq_dec p i) as [<-|NEi].
    - rewrite coord_set_at by lia. exact B'.
    - rewrite coord_set_other by exact NEi. rewrite FD, coord_set_other by exact NEi. apply (inside_coord _ _ HJ). rewrite FD, set_at_length in Hi. exact Hi. }
  specialize (E before ds x after _ EO HI). specialize (E' before ds x after _ EO HI). fold off in E, E'.
  rewrite coord_set_at, set_at_twice in E, E' by lia. replace (off + (coord p jdx - off)) with (coord p jdx) in E, E' by lia.
  assert (SJ : set_at p (coord p jdx) jdx = jdx) by apply set_at_same. rewrite SJ in E, E'. rewrite E, E'. reflexivity.
Qed.

(** Broadcasting. *)
Lemma broadcast_det dss ods ods' : broadcast_shape dss ods -> broadcast_shape dss ods' -> ods' = ods.
Proof.
  intros (L & (ds & I1 & M) & H) (L' & (ds' & I2 & M') & H').
  assert (LL : List.length ods' = List.length ods) by (specialize (L _ I2); specialize (L' _ I1); lia).
  assert (AD : forall d q, aligned_dim ods' d q = aligned_dim ods d q) by (intros d q; unfold aligned_dim; rewrite LL; reflexivity).
  apply (nth_ext _ _ 0 0); [exact LL|]. intros q Hq. change (coord q ods' = coord q ods).
  destruct (H q ltac:(lia)) as (A & d & Id & Ed). destruct (H' q Hq) as (A' & d' & Id' & Ed'). rewrite AD in Ed'.
  destruct (A d' Id') as [X|X]; [|congruence]. specialize (A' d Id). rewrite AD in A'. destruct A' as [Y|Y]; congruence.
Qed.
Lemma elementwise_det f ops ods (y y' : list R) : sized ods -> elementwise 0%R f ops ods y -> elementwise 0%R f ops ods y' -> y = y'.
Proof. intros S (L & E) (L' & E'). apply (el_ext 0%R ods); [exact S|exact L|exact L'|]. intros idx HI. rewrite (E idx HI), (E' idx HI). reflexivity. Qed.
Lemma max_pooled_det C H W kh kw sh sw dh dw top left OH OW (x y y' : list R) : 0 <= C -> 0 <= OH -> 0 <= OW ->
  max_pooled Rnum C H W kh kw sh sw dh dw top left OH OW x y -> max_pooled Rnum C H W kh kw sh sw dh dw top left OH OW x y' -> y = y'.
Proof.
  intros HC HH HW (L & E) (L' & E'). apply (at3_ext 0%R C OH OW); try assumption. intros c i j Hc Hi Hj.
  destruct (E c i j Hc Hi Hj) as (I1 & M1). destruct (E' c i j Hc Hi Hj) as (I2 & M2).
  specialize (M1 _ I2). specialize (M2 _ I1). cbn [nlt Rnum n0] in M1, M2. unfold Rltb in M1, M2.
  destruct (Rlt_dec _ _) as [|N1] in M1; [discriminate|]. destruct (Rlt_dec _ _) as [|N2] in M2; [discriminate|].
  apply Rle_antisym; apply Rnot_lt_le; assumption.
Qed.
Lemma bound_det t lo lo' : bound_is t lo -> bound_is t lo' -> lo = lo'.
Proof. intros H H'. destruct H; inversion H'; reflexivity. Qed.

(** ** Nodes. *)
Lemma some_float_inj (ops ops' : list (list Z * list R)) :
  map (fun o => Some (TFloat (fst o) (snd o))) ops = map (fun o => Some (TFloat (fst o) (snd o))) ops' -> ops = ops'.
Proof.
  revert ops'. induction ops as [|[d v] ops IH]; intros [|[d' v'] ops'] H; try discriminate; [reflexivity|]. cbn in H. injection H as -> -> H. f_equal. apply IH. exact H.
Qed.
Ltac ops_of H := repeat match type of H with context [String.eqb ?op ?s] => is_var op; destruct (String.eqb_spec op s); [subst; try (cbn in *; discriminate)|] end.
Lemma binary_not_variadic op f g : binary_of op = Some f -> variadic_of op = Some g -> False.
Proof. unfold binary_of. intros H G. repeat (match type of H with context [String.eqb op ?s] => destruct (String.eqb_spec op s); [subst; discriminate G|] end). discriminate. Qed.
Lemma unary_not_variadic op a o g : unary_of op a = Some o -> variadic_of op = Some g -> False.
Proof. unfold variadic_of. intros H G. repeat (match type of G with context [String.eqb op ?s] => destruct (String.eqb_spec op s); [subst; discriminate H|] end). discriminate. Qed.

Lemma map_of_nat_inj l l' : map Z.of_nat l = map Z.of_nat l' -> l = l'.
Proof. revert l'. induction l as [|a l IH]; intros [|b l'] H; try discriminate; [reflexivity|]. cbn in H. injection H as H1 H2. apply Nat2Z.inj in H1. f_equal; [exact H1|apply IH; exact H2]. Qed.
(** The same attribute has the same value. *)
Ltac same := repeat match goal with A : ?e = Some ?u, B : ?e = Some ?v |- _ =>
  let E := fresh in pose proof (eq_trans (eq_sym A) B) as E; clear B; inversion E; subst; clear E end.

Lemma app_inj {A} (a b a' b' : list A) : a ++ b = a' ++ b' -> List.length a = List.length a' -> a = a' /\ b = b'.
Proof. revert a'. induction a as [|u a IH]; intros [|u' a'] H L; try discriminate; [split; [reflexivity|exact H]|]. cbn in H. injection H as -> H. destruct (IH a' H ltac:(cbn in L; lia)) as (-> & ->). split; reflexivity. Qed.
Lemma sized_reduced p axes ds : sized ds -> sized (reduced_dims p axes ds).
Proof. intros H. revert p. induction H as [|n ds Hn H IH]; intros p; cbn [reduced_dims]; constructor; [destruct (existsb _ _); lia|apply IH]. Qed.
Lemma node_det op a ins ods y out : node_holds op a ins (TFloat ods y) -> node_holds op a ins out -> sized ods ->
  (forall ds x, hd None ins = Some (TFloat ds x) -> sized ds) -> out = TFloat ods y.
Proof.
  intros H1 H2 S SI. remember (TFloat ods y) as o1 eqn:EO. destruct H1; injection EO as <- <-; inversion H2; subst; try discriminate.
  all: try (match goal with H : unary_of (String _ _) _ = Some _ |- _ => exfalso; vm_compute in H; discriminate H end).
  all: try (match goal with H : variadic_of (String _ _) = Some _ |- _ => exfalso; vm_compute in H; discriminate H end).
  all: try (match goal with H : binary_of (String _ _) = Some _ |- _ => exfalso; vm_compute in H; discriminate H end).
  all: try (match goal with H : reduction_of (String _ _) = Some _ |- _ => exfalso; vm_compute in H; discriminate H end).
  all: try (match goal with H : (?s = _ /\ _) \/ (?s = _ /\ _) |- _ => exfalso; destruct H as [(H & _)|(H & _)]; subst; discriminate end).
  all: try (match goal with H : variadic_of _ = Some _, G : binary_of _ = Some _ |- _ => exfalso; exact (binary_not_variadic _ _ _ G H) end).
  all: try (match goal with H : variadic_of _ = Some _, G : unary_of _ _ = Some _ |- _ => exfalso; exact (unary_not_variadic _ _ _ _ G H) end).
  - (* element-wise functions *) same. reflexivity.
  - (* Clip *) assert (lo0 = lo) by (eapply bound_det; eassumption). assert (hi0 = hi) by (eapply bound_det; eassumption). subst. reflexivity.
  - (* Conv *) same. f_equal. inversion S as [|? ? _ S1]; subst. inversion S1 as [|? ? P1 S2]; subst. inversion S2 as [|? ? P2 S3]; subst. inversion S3 as [|? ? P3 _]; subst.
    match goal with A : convolved _ _ _ _ _ _ _ _ _ _ _ _ _ _ _ _ _ _ _ y, B : convolved _ _ _ _ _ _ _ _ _ _ _ _ _ _ _ _ _ _ _ y0 |- _ => destruct A as (LA & EA); destruct B as (LB & EB) end.
    eapply (at3_ext 0%R); [exact P1|exact P2|exact P3|exact LA|exact LB|]. intros c i j Hc Hi Hj. exact (eq_trans (EA c i j Hc Hi Hj) (eq_sym (EB c i j Hc Hi Hj))).
  - (* pooling *) same. f_equal. inversion S as [|? ? _ S1]; subst. inversion S1 as [|? ? P1 S2]; subst. inversion S2 as [|? ? P2 S3]; subst. inversion S3 as [|? ? P3 _]; subst.
    match goal with A : (op = "MaxPool"%string /\ _ _ y) \/ _, B : (op = "MaxPool"%string /\ _ _ y0) \/ _ |- _ =>
      destruct A as [(A1 & XA)|(A1 & ia & A2 & XA)]; destruct B as [(B1 & XB)|(B1 & ib & B2 & XB)]; subst; try discriminate end.
    + eapply max_pooled_det; [exact P1|exact P2|exact P3|exact XA|exact XB].
    + same. destruct XA as (LA & EA); destruct XB as (LB & EB).
      eapply (at3_ext 0%R); [exact P1|exact P2|exact P3|exact LA|exact LB|]. intros c i j Hc Hi Hj. exact (eq_trans (EA c i j Hc Hi Hj) (eq_sym (EB c i j Hc Hi Hj))).
  - (* BatchNormalization *) same. f_equal.
    match goal with A : batch_normalised _ _ _ _ _ _ _ _ y, B : batch_normalised _ _ _ _ _ _ _ _ y0 |- _ => destruct A as (LA & EA); destruct B as (LB & EB) end.
    eapply (el_ext 0%R); [exact S|exact LA|exact LB|]. intros idx HI. exact (eq_trans (EA idx HI) (eq_sym (EB idx HI))).
  - (* two operands *) same.
    match goal with A : broadcast_shape ?d ods, B : broadcast_shape ?d ods0 |- _ => pose proof (broadcast_det _ _ _ B A) end. subst. f_equal. eapply elementwise_det; eassumption.
  - (* any number of operands *) match goal with A : map _ _ = map _ _ |- _ => apply some_float_inj in A end. subst. same.
    match goal with A : broadcast_shape ?d ods, B : broadcast_shape ?d ods0 |- _ => pose proof (broadcast_det _ _ _ B A) end. subst. f_equal. eapply elementwise_det; eassumption.
  - exfalso. destruct ops as [|? [|? ?]]; discriminate.
  - exfalso. destruct ops as [|? [|? ?]]; discriminate.
  - (* Concat *) match goal with A : map _ _ = map _ _ |- _ => apply some_float_inj in A end. subst.
    destruct (int_attr "axis" None a) as [ax|]; [|discriminate].
    match goal with A : option_map (axis_pos ods) _ = Some _, B : option_map (axis_pos ods0) _ = Some _ |- _ => injection A as EA; injection B as EB end.
    assert (LL : List.length ods = List.length ods0).
    { destruct ops as [|o ops]; [congruence|]. repeat match goal with A : Forall _ (o :: ops) |- _ => inversion A as [|? ? ?G _]; clear A end. subst.
      apply (f_equal (@List.length Z)) in G, G0. rewrite set_at_length in G, G0. congruence. }
    assert (PP : axis_pos ods ax = axis_pos ods0 ax) by (unfold axis_pos, zlen; rewrite LL; reflexivity). rewrite PP in EA. rewrite EA in EB. subst.
    match goal with A : concatenated _ _ _ ods y, B : concatenated _ _ _ ods0 y0 |- _ => pose proof (concat_det _ _ _ _ _ _ ltac:(eassumption) S ltac:(eassumption) ltac:(eassumption) ltac:(eassumption) ltac:(eassumption) ltac:(eassumption) ltac:(eassumption) B A) as (-> & ->) end.
    reflexivity.
  - (* Transpose *) same. match goal with A : map Z.of_nat _ = map Z.of_nat _ |- _ => apply map_of_nat_inj in A end. subst. f_equal. eapply transposed_det; eassumption.
  - (* Flatten *) same. match goal with A : Z.of_nat _ = Z.of_nat _ |- _ => apply Nat2Z.inj in A end. subst. f_equal. eapply flattened_det; [eapply SI; reflexivity|eassumption|eassumption].
  - (* Gather *) same. f_equal.
    match goal with A : gathered _ _ _ _ _ y, B : gathered _ _ _ _ _ y0 |- _ => destruct A as (LA & EA); destruct B as (LB & EB) end.
    eapply (el_ext 0%R); [exact S|exact LA|exact LB|]. intros idx HI. exact (eq_trans (EA idx HI) (eq_sym (EB idx HI))).
  - (* GatherElements *) same. f_equal.
    match goal with A : gathered_elements _ _ _ _ _ _ y, B : gathered_elements _ _ _ _ _ _ y0 |- _ => destruct A as (LA & EA); destruct B as (LB & EB) end.
    eapply (el_ext 0%R); [exact S|exact LA|exact LB|]. intros idx HI. exact (eq_trans (EA idx HI) (eq_sym (EB idx HI))).
  - (* Gemm *) same.
    assert (EQ : M0 = M /\ Nn0 = Nn /\ K0 = K).
    { subst sA sB sA0 sB0. match goal with A : (if ?b then [K0; M0] else _) = _, B : (if ?b' then [Nn0; K0] else _) = _ |- _ => destruct b, b'; injection A; injection B; intros; repeat split; congruence end. }
    destruct EQ as (-> & -> & ->). f_equal. subst sA0 sB0.
    match goal with A : gemm_value _ _ _ _ _ _ _ _ _ _ _ _ y, B : gemm_value _ _ _ _ _ _ _ _ _ _ _ _ y0 |- _ => destruct A as (LA & EA); destruct B as (LB & EB) end.
    assert (P2 : prod [M; Nn] = M * Nn) by (cbn [prod]; ring).
    eapply (el_ext 0%R); [exact S|rewrite P2; exact LA|rewrite P2; exact LB|]. intros idx HI.
    inversion HI as [|? i ? ? Hi HI1]; subst. inversion HI1 as [|? j ? ? Hj HI2]; subst. inversion HI2; subst. exact (eq_trans (EA i j Hi Hj) (eq_sym (EB i j Hi Hj))).
  - (* Softmax *) same. f_equal.
    match goal with A : softmaxed _ _ _ _ y, B : softmaxed _ _ _ _ y0 |- _ => destruct A as (LA & EA); destruct B as (LB & EB) end.
    eapply (el_ext 0%R); [exact S|exact LA|exact LB|]. intros idx HI. exact (eq_trans (EA idx HI) (eq_sym (EB idx HI))).
  - (* Pad *) match goal with A : before0 ++ after0 = before ++ after |- _ => apply app_inj in A; [destruct A as (-> & ->)|congruence] end. same.
    assert (value0 = value) by (eapply bound_det; eassumption). subst. f_equal.
    match goal with A : padded _ _ _ _ _ _ _ y, B : padded _ _ _ _ _ _ _ y0 |- _ => destruct A as (LA & EA); destruct B as (LB & EB) end.
    eapply (el_ext 0%R); [exact S|exact LA|exact LB|]. intros idx HI. exact (eq_trans (EA idx HI) (eq_sym (EB idx HI))).
  - exfalso. destruct ops as [|? [|? ?]]; discriminate.
  - (* Reduce *) same. 
    match goal with A : reduced _ _ _ _ _ y, B : reduced _ _ _ _ _ y0 |- _ => destruct A as (LA & EA); destruct B as (LB & EB) end.
    f_equal. assert (S' : sized (reduced_dims 0 (reduced_axes ds axes) ds)).
    { unfold reduced_shape in S. destruct (kd0 =? 0); [|exact S]. apply sized_reduced. eapply SI. reflexivity. }
    eapply (el_ext 0%R); [exact S'|exact LA|exact LB|]. intros idx HI. exact (eq_trans (EA idx HI) (eq_sym (EB idx HI))).
  - (* with no axes *) exfalso. match goal with A : [] = [] -> _ |- _ => specialize (A eq_refl) end. congruence.
  - exfalso. destruct ops as [|? [|? ?]]; discriminate.
  - exfalso. match goal with A : [] = [] -> _ |- _ => specialize (A eq_refl) end. congruence.
  - reflexivity.
  - (* Tile *) f_equal.
    match goal with A : tiled _ _ _ _ y, B : tiled _ _ _ _ y0 |- _ => destruct A as (LA & EA); destruct B as (LB & EB) end.
    eapply (el_ext 0%R); [exact S|exact LA|exact LB|]. intros idx HI. exact (eq_trans (EA idx HI) (eq_sym (EB idx HI))).
  - (* Dense *) match goal with A : lead0 ++ [_] = lead ++ [_] |- _ => apply app_inj_tail in A; destruct A as (-> & _) end. f_equal.
    match goal with A : dotted _ _ _ _ _ _ y, B : dotted _ _ _ _ _ _ y0 |- _ => destruct A as (LA & EA); destruct B as (LB & EB) end.
    eapply (el_ext 0%R); [exact S|exact LA|exact LB|]. intros idx HI. apply Forall2_app_inv_l in HI. destruct HI as (q & r & Hq & Hr & ->). inversion Hr as [|? j ? ? Hj Hr']; subst. inversion Hr'; subst.
    exact (eq_trans (EA q j Hq Hj) (eq_sym (EB q j Hq Hj))).
  - reflexivity.
Qed.
