(** * Reading back an exported graph (the proof of C80). *)
From Coq Require Import String Ascii.
From Coq Require Import ZArith List Lia Bool Reals Lra QArith Permutation.
Import ListNotations.
Open Scope Z_scope.
From Verif Require Import CMem Tensor Num RealInst Activation Conv Pooling PropertiesPooling Movement MovementProofs Pad Linear Reduce Graph GraphSpec LayerKinds Net
  OnnxSpec OnnxOpsProofs OnnxWindowSpec OnnxLinearSpec OnnxMiscSpec ExportSpec Export ExportNames ExportRun ExportDet ExportMeaning PropertiesExport.
From Verif Require Broadcast BroadcastProofs.
From Verif Require Import OnnxModelSpec.
Open Scope string_scope.
Open Scope list_scope.
Open Scope Z_scope.

Lemma NoDup_app_intro {A} (a b : list A) : NoDup a -> NoDup b -> (forall v, In v a -> In v b -> False) -> NoDup (a ++ b).
Proof.
  intros Ha Hb D. induction Ha as [|v a NI Ha IH]; [exact Hb|]. cbn [Datatypes.app]. constructor.
  - intros H. apply in_app_or in H. destruct H as [H|H]; [contradiction|]. apply (D v); [left; reflexivity|exact H].
  - apply IH. intros u H1 H2. apply (D u); [right; exact H1|exact H2].
Qed.
(** An operator of the exporter holds in the sense of the importer's specification. *)
Lemma node_op op a ins out : node_holds op a ins out -> op_holds op a ins out.
Proof.
  intros H. destruct H.
  all: try (apply o_basic; [cbn; intuition discriminate|]; econstructor; eassumption).
  - apply o_basic; [|apply h_unary; assumption]. intros [<-|[<-|[<-|[]]]]; discriminate.
  - subst OH OW. replace [M; C; kh; kw] with [M; C / 1; kh; kw] by (rewrite Z.div_1_r; reflexivity).
    eapply (o_conv a 1 C H W M kh kw sh sw dh dw (top, bottom) (left, right)); [assumption| |apply bias_given|assumption].
    split; [assumption|]. split; [assumption|]. split; [assumption|]. exists NotSet, top, left, bottom, right. split; [|split; [assumption|split; reflexivity]].
    unfold auto_of. match goal with E : str_attr _ _ _ = _ |- _ => rewrite E end. reflexivity.
  - assert (WN : window a None H W kh kw sh sw dh dw (top, bottom) (left, right)).
    { split; [assumption|]. split; [assumption|]. split; [assumption|]. exists NotSet, top, left, bottom, right. split; [|split; [assumption|split; reflexivity]].
      unfold auto_of. match goal with E : str_attr _ _ _ = _ |- _ => rewrite E end. reflexivity. }
    subst OH OW. match goal with E : _ \/ _ |- _ => destruct E as [(-> & MP)|(-> & inc & EI & AP)] end.
    + eapply (o_max_pool a C H W kh kw sh sw dh dw (top, bottom) (left, right)); [exact WN|assumption|exact MP].
    + eapply (o_average_pool a C H W kh kw sh sw dh dw (top, bottom) (left, right)); [exact WN|assumption|exact EI|exact AP].
  - apply o_basic; [|eapply h_binary; eassumption]. intros [<-|[<-|[<-|[]]]]; discriminate.
  - apply o_basic; [|eapply h_variadic; eassumption]. intros [<-|[<-|[<-|[]]]]; discriminate.
  - apply o_basic; [|eapply h_reduce; eassumption]. intros [<-|[<-|[<-|[]]]]; discriminate.
  - apply o_basic; [|eapply h_reduce_noop; eassumption]. intros [<-|[<-|[<-|[]]]]; discriminate.
Qed.

(** The exported file as the importer reads it: its opset, and the dimensions
    found by shape inference (parser_ONNX.py:76-77). *)
Definition reread (opset : Z) (inferred : list (string * list Z)) (g : onnx_graph) : source :=
  mkSource opset (g_inputs g) (g_init g) (g_nodes g) inferred (g_outputs g).
(** Shape inference gives the tensors of the graph their dimensions. *)
Definition inferred_dims (md : model Rnum) (dims : nat -> list Z) (ls : list nat) : list (string * list Z) :=
  flat_map (fun n => (base md n, dims n) :: (if fused md n then [(named md n "_pre_activation", dims n)] else [])) ls.

(** Layers that the importer reads back, among those that are exported right:
    [k] is the number of layers it reads. *)
Definition reimportable (l : layer Rnum) (k : nat) : Prop :=
  match lact Rnum l with Silu | Clip _ _ => False | _ => True end /\
  match lkind Rnum l with
  | KActivation _ _ | KBatchNorm _ _ _ _ _ _ _ _ _ | KTranspose _ _ _ _ _ _ _ | KConcat _ _ _ _ _ _ | KFlatten _ _ _ _ _ | KSoftmax _ _ _ _ _ => True
  | KConv _ _ c _ _ => 1 <= kh c /\ 1 <= kw c /\ 0 < strides c
  | KMaxPool _ P | KAvgPool _ P => p_right P = p_left P
  | KGemm _ _ _ (Some alpha) (Some beta) _ _ _ _ _ => alpha = 1%R \/ beta <> 1%R
  | KBroadcast _ (Broadcast.BSub | Broadcast.BMul | Broadcast.BDiv) _ None _ => k = 2%nat
  | KBroadcast _ (Broadcast.BMax | Broadcast.BMin) _ None _ => True
  | _ => False
  end.

Section Trip.
  Context (ninf : R) (q : Q -> R) (md : model Rnum) (ex : nat -> extra) (s : schedule) (x : list R) (val : nat -> list R) (dims : nat -> list Z) (ls : list nat)
    (opset : Z) (i o : nat).
  Notation gr := (md_graph Rnum md).
  Notation prevs n := (previous_layer gr n).
  Hypothesis (WL : well_listed md ls) (IN : incl ls (dnn gr)).
  Hypothesis EV : evaluates (documented_net Rnum ninf q md s) x val.
  Hypothesis POS : forall n, In n ls -> Forall (fun d => 0 < d) (dims n) /\ 1 <= zlen (dims n) <= 4 /\ (zlen (dims n) = 4 -> coord 0 (dims n) = 1).
  Hypothesis HI : forall n, In n ls -> input_kind md n -> dims n = x_shape (ex n) /\ zlen (md_pre Rnum md s x) = prod (dims n).
  Hypothesis HX : forall n, In n ls -> ~ input_kind md n -> exportable (md_layer Rnum md n) (ex n) (map dims (prevs n)) (dims n).
  Hypothesis RX : forall n, In n ls -> ~ input_kind md n -> reimportable (md_layer Rnum md n) (List.length (prevs n)).
  Hypothesis ST : forall nm t, In (nm, t) (flat_map (inits_of md ex) ls) -> sized_tensor t.
  Hypothesis ONE : forall n, In n ls -> (input_kind md n <-> n = i).
  Hypothesis (Hi : In i ls) (Ho : In o ls) (NEio : i <> o).
  Hypothesis SINK : forall n, In n ls -> next_layer gr n = [] -> n = o.
  Hypothesis READ : forall n, In n ls -> n <> o -> exists k, In k ls /\ In n (prevs k).
  Hypothesis DECL : declared_shape md ex o = dims o.
  Hypothesis ONCE : forall n, In n ls -> NoDup (prevs n).
  Hypothesis FLAT : forall n p k, In n ls -> (exists cl C H W, lk Rnum md n = KFlatten Rnum cl C H W) -> In p (prevs n) -> In k ls -> In p (prevs k) -> k = n.
  Hypothesis OPS : 13 <= opset.

  Definition src : source := reread opset (inferred_dims md dims ls) (exported md ex ls).
  Notation pre_name n := (named md n "_pre_activation").
  Notation env := (the_run ninf q md ex val dims ls).

  Lemma AE n : In n ls -> exists i e, export_input md ex n = Some i /\ export_layer md ex n = Some e.
  Proof. eapply all_exported; eassumption. Qed.
  Lemma SZ n : In n ls -> sized (dims n).
  Proof. intros H. eapply Forall_impl; [|apply (POS n H)]. cbn. intros. lia. Qed.
  Lemma run_dims_id n : In n ls -> run_dims (dims n) = dims n.
  Proof. intros H. destruct (POS n H) as (P & _). unfold run_dims. rewrite <- (map_id (dims n)) at 2. apply map_ext_in. intros d Hd. rewrite Forall_forall in P. specialize (P d Hd). destruct (Z.eqb_spec d 0); lia. Qed.
  Lemma base_pre n m : base md n <> pre_name m.
  Proof. intros H. rewrite <- named_nil in H. apply named_inj in H; [destruct H as (_ & H); discriminate|left; reflexivity|right; eexists; reflexivity]. Qed.
  Lemma pre_inj n m : pre_name n = pre_name m -> n = m.
  Proof. intros H. apply named_inj in H; [apply H|right; eexists; reflexivity|right; eexists; reflexivity]. Qed.

  Lemma announced_dims nm ds : announced src nm ds -> exists n, In n ls /\ ds = dims n /\ (nm = base md n \/ fused md n = true /\ nm = pre_name n).
  Proof.
    unfold announced, src, reread. cbn [s_inputs s_value_info s_outputs exported g_inputs g_outputs]. intros H. apply in_app_or in H. destruct H as [H|H]; [|apply in_app_or in H; destruct H as [H|H]].
    - apply in_flat_map in H. destruct H as (n & Hn & H). exists n. split; [exact Hn|].
      assert (K : input_kind md n).
      { unfold ins_of, export_input in H. unfold input_kind, lk. destruct (prevs n); [|destruct H]. destruct (lkind Rnum (md_layer Rnum md n)); try exact I; destruct H. }
      destruct (input_value ninf q md ex s x val dims ls WL IN EV HI n Hn K) as (_ & _ & _ & E & _). rewrite E in H. destruct H as [H|[]]. injection H as <- <-. split; [reflexivity|left; reflexivity].
    - unfold inferred_dims in H. apply in_flat_map in H. destruct H as (n & Hn & H). exists n. split; [exact Hn|]. destruct H as [H|H].
      + injection H as <- <-. split; [reflexivity|left; reflexivity].
      + destruct (fused md n); [|destruct H]. destruct H as [H|[]]. injection H as <- <-. split; [reflexivity|right; split; reflexivity].
    - apply in_flat_map in H. destruct H as (n & Hn & H). unfold outs_of, export_output in H. destruct (next_layer gr n) eqn:EN; [|destruct H]. destruct H as [H|[]]. injection H as <- <-.
      pose proof (SINK n Hn EN) as ->. exists o. split; [exact Ho|]. split; [exact DECL|left; reflexivity].
  Qed.
  Lemma announced_base n ds : announced src (base md n) ds -> ds = dims n.
  Proof. intros H. destruct (announced_dims _ _ H) as (m & _ & -> & [E|(_ & E)]); [apply base_inj in E; subst; reflexivity|exfalso; exact (base_pre _ _ E)]. Qed.
  Lemma announced_out n ds : announced src (output_name md n) ds -> ds = dims n.
  Proof.
    unfold output_name. destruct (fused md n); [|apply announced_base]. intros H. destruct (announced_dims _ _ H) as (m & _ & -> & [E|(_ & E)]); [exfalso; exact (base_pre _ _ (eq_sym E))|apply pre_inj in E; subst; reflexivity].
  Qed.
  Lemma produced_base n : In n ls -> produced src (base md n).
  Proof.
    intros Hn. unfold produced, src, reread. cbn [s_inputs s_nodes exported g_inputs g_nodes]. destruct (base_defined md ex n ls WL Hn (AE n Hn)) as [H|H]; [left|right];
      apply in_map_iff in H; destruct H as (e & E & H); apply in_map_iff; exists e; (split; [exact E|]); apply in_flat_map; exists n; split; assumption.
  Qed.
  Lemma the_node n : In n ls -> ~ input_kind md n -> exists e nd, export_layer md ex n = Some e /\ fst e = [nd] /\ n_output nd = output_name md n.
  Proof. intros Hn K. apply (exportable_exports md ex n _ _ (HX n Hn K)). Qed.
  Lemma produced_out n : In n ls -> ~ input_kind md n -> produced src (output_name md n).
  Proof.
    intros Hn K. destruct (the_node n Hn K) as (e & nd & E & EN & EO). right. unfold src, reread. cbn [s_nodes exported g_nodes]. rewrite <- EO. apply in_map, in_flat_map. exists n. split; [exact Hn|].
    unfold nodes_of. rewrite E, EN. left. reflexivity.
  Qed.
  Lemma stored_init n nm : In n ls -> In nm (map fst (inits_of md ex n)) -> exists t, stored src nm t.
  Proof.
    intros Hn H. apply in_map_iff in H. destruct H as ((nm' & t) & E & H). cbn [fst] in E. subst nm'. exists t. unfold stored, src, reread. cbn [s_init exported g_init]. apply in_flat_map. exists n. split; assumption.
  Qed.
  Lemma stored_in n nm t : In n ls -> In (nm, t) (inits_of md ex n) -> stored src nm t.
  Proof. intros Hn H. unfold stored, src, reread. cbn [s_init exported g_init]. apply in_flat_map. exists n. split; assumption. Qed.
  Lemma prev_in' n p : In n ls -> In p (prevs n) -> In p ls.
  Proof. eapply prev_in; eassumption. Qed.
  Lemma produced_prev n : In n ls -> Forall (produced src) (input_names md n).
  Proof. intros Hn. unfold input_names. apply Forall_forall. intros nm H. apply in_map_iff in H. destruct H as (p & <- & Hp). apply produced_base. eapply prev_in'; eassumption. Qed.

  Lemma covered_fused n nd : In n ls -> ~ input_kind md n -> In nd (fst (export_fused md n)) -> covered src nd /\ n_inputs nd = [pre_name n] /\ n_output nd = base md n.
  Proof.
    intros Hn K H. destruct (fused_node md ex n nd H) as (F & _). pose proof (produced_out n Hn K) as P. unfold output_name in P. rewrite F in P.
    destruct (RX n Hn K) as (RA & _). destruct (HX n Hn K) as (AC & _). unfold export_fused in H. rewrite F in H. destruct (lact Rnum (md_layer Rnum md n)) as [| | |alpha| | | | |]; try (exfalso; exact RA); cbn [fst] in H; try (destruct H; fail).
    all: destruct H as [<-|[]]; (split; [|split; reflexivity]).
    1, 2, 4, 5, 6: apply v_unary; [cbn [In]; tauto|exact P].
    apply v_leaky; [|exact P]. intros v E. cbn in E. injection E as <-. cbn in AC. unfold Rltb in AC. destruct (Rlt_dec alpha 0); [discriminate|lra].
  Qed.
  Lemma rank4_dims n : In n ls -> (exists a b c d, dims n = [a; b; c; d]) -> forall ds, ds = dims n -> zlen ds = 4.
  Proof. intros Hn (a & b & c & d & E) ds ->. rewrite E. reflexivity. Qed.

  (** The node of a layer. *)
  Lemma covered_layer n e nd : In n ls -> ~ input_kind md n -> export_layer md ex n = Some e -> fst e = [nd] -> covered src nd.
  Proof.
    intros Hn K E EN. pose proof (HX n Hn K) as (AC & X). pose proof (RX n Hn K) as (RA & RK). pose proof (produced_prev n Hn) as PP.
    assert (SI : forall nm, In nm (map fst (snd e)) -> exists t, stored src nm t).
    { intros nm H. apply (stored_init n nm Hn). unfold inits_of. rewrite E, map_app. apply in_or_app. left. exact H. }
    assert (SV : forall nm t, In (nm, t) (snd e) -> stored src nm t).
    { intros nm t H. apply (stored_in n nm t Hn). unfold inits_of. rewrite E. apply in_or_app. left. exact H. }
    assert (ONE1 : forall d, map dims (prevs n) = [d] -> exists p, prevs n = [p] /\ dims p = d /\ In p ls /\ input_names md n = [base md p]).
    { intros d H. destruct (prevs n) as [|p [|]] eqn:EP; try discriminate. injection H as H. exists p. split; [reflexivity|]. split; [exact H|]. split; [apply (prev_in' n); [exact Hn|rewrite EP; left; reflexivity]|].
      unfold input_names. rewrite EP. reflexivity. }
    unfold export_layer in E. unfold input_kind in K. unfold lk in *. destruct (lkind Rnum (md_layer Rnum md n)) eqn:KE; try (exfalso; exact RK); try (exfalso; apply K; exact I).
    - (* activation *)
      destruct (map dims (prevs n)) as [|d [|]] eqn:ED; try (exfalso; exact X). destruct (ONE1 _ eq_refl) as (p & EP & DP & Hp & NP). rewrite NP in *. inversion PP as [|? ? P1 _]; subst.
      destruct X as (_ & X). destruct (lact Rnum (md_layer Rnum md n)) as [| | |alpha| | | | |]; try (exfalso; exact RA); try (exfalso; exact X); injection E as <-; cbn [fst] in EN; injection EN as <-.
      3: { apply v_leaky; [|exact P1]. intros v Ev. cbn in Ev. injection Ev as <-. lra. }
      all: apply v_unary; [cbn [In]; tauto|exact P1].
    - (* Gemm *)
      destruct alpha as [alpha|]; [|exfalso; exact RK]. destruct beta as [beta|]; [|exfalso; exact RK].
      destruct (map dims (prevs n)) as [|d [|]] eqn:ED; try (exfalso; exact X). destruct (ONE1 _ eq_refl) as (p & EP & DP & Hp & NP). rewrite NP in *. inversion PP as [|? ? P1 _]; subst.
      injection E as <-. cbn [fst snd] in *. injection EN as <-. cbn [Datatypes.app]. destruct X as (_ & _ & _ & _ & OD).
      eapply (v_gemm src _ (base md p) (named md n "_weight") (named md n "_bias") b _).
      + cbn. destruct RK as [->|RK]; [left; reflexivity|right; congruence].
      + exact P1.
      + apply SI. left. reflexivity.
      + apply SV. right. left. reflexivity.
      + intros ds HA. rewrite (announced_out n ds HA), run_dims_id, OD by exact Hn. reflexivity.
    - (* BatchNormalization *)
      destruct (map dims (prevs n)) as [|d [|]] eqn:ED; try (exfalso; exact X). destruct (ONE1 _ eq_refl) as (p & EP & DP & Hp & NP). rewrite NP in *. inversion PP as [|? ? P1 _]; subst.
      injection E as <-. cbn [fst snd] in *. injection EN as <-. cbn [Datatypes.app]. destruct X as (_ & _ & _ & D1 & D2).
      apply v_batch_norm; [exact P1| |].
      + intros ds HA. rewrite (announced_out n ds HA), D2, D1. reflexivity.
      + intros nm HA. apply SI. exact HA.
    - (* Transpose *)
      destruct (map dims (prevs n)) as [|d [|]] eqn:ED; try (exfalso; exact X). destruct (ONE1 _ eq_refl) as (p & EP & DP & Hp & NP). rewrite NP in *. inversion PP as [|? ? P1 _]; subst.
      injection E as <-. cbn [fst snd] in *. injection EN as <-. destruct X as (_ & _ & _ & _ & X0 & D1 & D2).
      apply (v_transpose src _ p1 p2 p3); [exact P1| |cbn; rewrite X0; reflexivity].
      intros ds HA. rewrite (announced_base p ds HA), D1. reflexivity.
    - (* Concat *)
      injection E as <-. cbn [fst snd] in *. injection EN as <-. assert (X' := X). destruct (map dims (prevs n)); clear X; destruct X' as (AX & _ & _ & _ & _ & _ & OD & _);
      (apply (v_concat src _ axis); [exact PP|reflexivity|]; intros ds HA; rewrite (announced_out n ds HA), OD; unfold valid_axis; cbn [zlen List.length Z.of_nat]; split; [change (zlen [1; OC; OH; OW]) with 4; lia|];
       intros _; unfold axis_pos, from_back; destruct (Z.ltb_spec axis 0); lia).
    - (* Flatten *)
      destruct (map dims (prevs n)) as [|d [|]] eqn:ED; try (exfalso; exact X). destruct (ONE1 _ eq_refl) as (p & EP & DP & Hp & NP). rewrite NP in *. inversion PP as [|? ? P1 _]; subst.
      injection E as <-. cbn [fst snd] in *. injection EN as <-.
      apply v_reshape; [cbn [In]; tauto|exact P1|intros nm []].
    - (* Conv *)
      destruct (map dims (prevs n)) as [|d [|]] eqn:ED; try (exfalso; exact X). destruct (ONE1 _ eq_refl) as (p & EP & DP & Hp & NP). rewrite NP in *. inversion PP as [|? ? P1 _]; subst.
      injection E as <-. cbn [fst snd] in *. injection EN as <-. cbn [Datatypes.app]. destruct RK as (R1 & R2 & R3).
      eapply (v_conv src _ (kh c) (kw c) (strides c) (dilation c) NotSet); try reflexivity; try assumption. left. reflexivity.
    - (* MaxPool *)
      destruct (map dims (prevs n)) as [|d [|]] eqn:ED; try (exfalso; exact X). destruct (ONE1 _ eq_refl) as (pv & EP & DP & Hp & NP). rewrite NP in *. inversion PP as [|? ? P1 _]; subst.
      injection E as <-. cbn [fst snd] in *. injection EN as <-. destruct X as ((A1 & A2 & A3 & A4 & A5 & A6 & A7 & A8 & A9 & _) & _).
      eapply (v_pool src "MaxPool" _ _ _ NotSet); try reflexivity; try assumption; [left; reflexivity|lia|]. intros ds _. cbn [onnx_pads fst]. exact RK.
    - (* AveragePool *)
      destruct (map dims (prevs n)) as [|d [|]] eqn:ED; try (exfalso; exact X). destruct (ONE1 _ eq_refl) as (pv & EP & DP & Hp & NP). rewrite NP in *. inversion PP as [|? ? P1 _]; subst.
      injection E as <-. cbn [fst snd] in *. injection EN as <-. destruct X as ((A1 & A2 & A3 & A4 & A5 & A6 & A7 & A8 & A9 & _) & _).
      eapply (v_pool src "AveragePool" _ _ _ NotSet); try reflexivity; try assumption; [right; split; reflexivity|lia|]. intros ds _. cbn [onnx_pads fst]. exact RK.
    - (* element-wise *)
      unfold input_names in *. rewrite map_length in E.
      destruct k; try (exfalso; exact RK); destruct cst as [cst|]; try (exfalso; exact RK).
      1, 2, 3: rewrite RK in E; cbn [Nat.eqb andb] in E; injection E as <-; cbn [fst] in EN; injection EN as <-; apply v_operands; [cbn [In]; tauto|exact PP].
      all: match type of E with context [if ?b then _ else _] => replace b with false in E by (cbn; rewrite andb_false_r; reflexivity) end; injection E as <-; cbn [fst] in EN; injection EN as <-; apply v_operands; [cbn; tauto|exact PP].
    - (* Softmax *)
      destruct (map dims (prevs n)) as [|d [|]] eqn:ED; try (exfalso; exact X). destruct (ONE1 _ eq_refl) as (p & EP & DP & Hp & NP). rewrite NP in *. inversion PP as [|? ? P1 _]; subst.
      injection E as <-. cbn [fst snd] in *. injection EN as <-. destruct X as (C0 & H0 & W0 & L1 & S4 & AX & OD).
      apply (v_softmax src [] (base md p) _ (-1)); [exact OPS|exact P1|reflexivity| |].
      + intros ds HA. rewrite (announced_base p ds HA). unfold valid_axis, axis_pos, from_back, zlen. cbn [Z.ltb Z.compare]. split; lia.
      + intros ds HA HV. rewrite (announced_base p ds HA) in *. rewrite run_dims_id in * by exact Hp.
        destruct S4 as (L4 & S4). cbn [Broadcast.sC Broadcast.sH Broadcast.sW] in S4.
        assert (V : C * H * W = prod (dims p) /\ In (prod (dims p)) [1; C; H; W] /\ coord (axis_pos (dims p) (-1)) (dims p) = W).
        { clear -S4 L1 L4 HV. destruct (dims p) as [|a [|b [|c [|e [|]]]]]; cbn in L1, L4; try lia; cbn in S4; injection S4; intros; subst; cbn [prod In] in HV |- *;
            (split; [ring|]); (split; [|reflexivity]); repeat (destruct HV as [HV|HV]; [try rewrite <- HV; tauto|]); destruct HV. }
        destruct V as (V1 & V2 & V3). rewrite V3, <- V1. unfold one_dimension in AX.
        assert (B : existsb (Z.eqb (C * H * W)) [1; C; H; W] = true) by (apply existsb_exists; exists (C * H * W); split; [rewrite V1; exact V2|apply Z.eqb_refl]).
        rewrite B in AX. exact AX.
  Qed.

  (** What the node of a layer reads; the operators that only change the shape. *)
  Lemma node_shape n e nd : In n ls -> ~ input_kind md n -> export_layer md ex n = Some e -> fst e = [nd] ->
    (exists ss, n_inputs nd = input_names md n ++ map (named md n) ss /\ forallb (prefix "_") ss = true /\ distinct ss = true) /\
    (In (n_op nd) ["Dropout"; "Unsqueeze"; "Reshape"; "Flatten"] -> (exists cl C H W, lk Rnum md n = KFlatten Rnum cl C H W) /\ fused md n = false).
  Proof.
    intros Hn K E EN. pose proof (HX n Hn K) as (AC & X). pose proof (RX n Hn K) as (RA & RK).
    assert (D : forall op a ss inits, ~ In op ["Dropout"; "Unsqueeze"; "Reshape"; "Flatten"] -> forallb (prefix "_") ss = true -> distinct ss = true ->
      Some ([mkONode op a (input_names md n ++ map (named md n) ss) (output_name md n)], inits) = Some e ->
      (exists ss, n_inputs nd = input_names md n ++ map (named md n) ss /\ forallb (prefix "_") ss = true /\ distinct ss = true) /\
      (In (n_op nd) ["Dropout"; "Unsqueeze"; "Reshape"; "Flatten"] -> (exists cl C H W, lk Rnum md n = KFlatten Rnum cl C H W) /\ fused md n = false)).
    { intros op a ss inits NI PR DI EE. injection EE as <-. injection EN as <-. split; [exists ss; split; [reflexivity|split; assumption]|]. intros HH. exfalso. exact (NI HH). }
    assert (D0 : forall op a inits, ~ In op ["Dropout"; "Unsqueeze"; "Reshape"; "Flatten"] ->
      Some ([mkONode op a (input_names md n) (output_name md n)], inits) = Some e ->
      (exists ss, n_inputs nd = input_names md n ++ map (named md n) ss /\ forallb (prefix "_") ss = true /\ distinct ss = true) /\
      (In (n_op nd) ["Dropout"; "Unsqueeze"; "Reshape"; "Flatten"] -> (exists cl C H W, lk Rnum md n = KFlatten Rnum cl C H W) /\ fused md n = false)).
    { intros op a inits NI EE. apply (D op a [] inits NI eq_refl eq_refl). cbn [map]. rewrite app_nil_r. exact EE. }
    unfold export_layer in E. unfold input_kind in K. unfold lk in *.
    destruct (lkind Rnum (md_layer Rnum md n)) eqn:KE; try (exfalso; exact RK); try (exfalso; apply K; exact I).
    - destruct (lact Rnum (md_layer Rnum md n)); try (exfalso; exact RA); try (eapply D0; [|exact E]; cbn; intuition discriminate).
      exfalso. destruct (map dims (prevs n)) as [|? [|]]; try exact X. destruct X as (_ & []).
    - eapply (D _ _ ["_weight"; "_bias"]); [| | |exact E]; [cbn; intuition discriminate|reflexivity|reflexivity].
    - eapply (D _ _ ["_scale"; "_biases"; "_mean"; "_var"]); [| | |exact E]; [cbn; intuition discriminate|reflexivity|reflexivity].
    - eapply D0; [|exact E]; cbn; intuition discriminate.
    - eapply D0; [|exact E]; cbn; intuition discriminate.
    - destruct (map dims (prevs n)) as [|? [|]]; try (exfalso; exact X). destruct X as (_ & LA & _). injection E as <-. injection EN as <-. split.
      + exists []. split; [symmetry; apply app_nil_r|split; reflexivity].
      + intros _. split; [eexists _, _, _, _; reflexivity|]. unfold fused. rewrite KE, LA. reflexivity.
    - eapply (D _ _ ["_weight"; "_bias"]); [| | |exact E]; [cbn; intuition discriminate|reflexivity|reflexivity].
    - eapply D0; [|exact E]; cbn; intuition discriminate.
    - eapply D0; [|exact E]; cbn; intuition discriminate.
    - unfold input_names in E. rewrite map_length in E. fold (input_names md n) in E.
      destruct k; try (exfalso; exact RK); destruct cst as [cst|]; try (exfalso; exact RK).
      1, 2, 3: rewrite RK in E; cbn [Nat.eqb andb] in E; eapply D0; [|exact E]; cbn; intuition discriminate.
      all: match type of E with context [if ?b then _ else _] => replace b with false in E by (cbn; rewrite andb_false_r; reflexivity) end; eapply D0; [|exact E]; cbn; intuition discriminate.
    - eapply D0; [|exact E]; cbn; intuition discriminate.
  Qed.

  (** Nodes of the file. *)
  Lemma node_cases nd : In nd (s_nodes src) -> exists n, In n ls /\ ~ input_kind md n /\ In nd (nodes_of md ex n) /\
    ((exists e, export_layer md ex n = Some e /\ fst e = [nd]) \/ In nd (fst (export_fused md n))).
  Proof.
    unfold src, reread. cbn [s_nodes exported g_nodes]. intros H. apply in_flat_map in H. destruct H as (n & Hn & H). exists n. split; [exact Hn|].
    destruct (kinds md ls n Hn) as [K|K].
    - destruct (input_value ninf q md ex s x val dims ls WL IN EV HI n Hn K) as (_ & _ & _ & _ & _ & E & _). rewrite E in H. destruct H.
    - split; [exact K|]. split; [exact H|]. destruct (the_node n Hn K) as (e & nd' & E & EN & _). unfold nodes_of in H. rewrite E, EN in H. destruct H as [<-|H]; [left; exists e; split; assumption|right; exact H].
  Qed.
  Lemma reads_prev n : In n ls -> ~ input_kind md n -> prevs n <> [].
  Proof. intros Hn K E. pose proof (HX n Hn K) as X. rewrite E in X. exact (exportable_reads _ _ _ X). Qed.
  Lemma src_covered : all_covered src.
  Proof.
    intros nd H. destruct (node_cases nd H) as (n & Hn & K & _ & [(e & E & EN)|F]).
    - split; [eapply covered_layer; eassumption|]. destruct (node_reads md ex n e nd E) as (more & NR); [rewrite EN; left; reflexivity|].
      pose proof (reads_prev n Hn K) as NE. pose proof (produced_prev n Hn) as PP. unfold input_names in NR, PP. destruct (prevs n) as [|p r]; [congruence|].
      exists (base md p). split; [rewrite NR; left; reflexivity|]. cbn [map] in PP. inversion PP; assumption.
    - destruct (covered_fused n nd Hn K F) as (C & EI & _). split; [exact C|]. exists (pre_name n). split; [rewrite EI; left; reflexivity|].
      destruct (fused_node md ex n nd F) as (FF & _). pose proof (produced_out n Hn K) as P. unfold output_name in P. rewrite FF in P. exact P.
  Qed.
  Lemma src_once : reads_once src.
  Proof.
    intros nd H. destruct (node_cases nd H) as (n & Hn & K & _ & [(e & E & EN)|F]).
    - destruct (node_shape n e nd Hn K E EN) as ((ss & -> & PR & DI) & _). unfold input_names.
      assert (SS : forall t, In t ss -> suffix_ok t /\ t <> "").
      { intros t Ht. rewrite forallb_forall in PR. specialize (PR t Ht). destruct t as [|c t]; [discriminate PR|]. cbn [prefix] in PR. destruct (ascii_dec "_"%char c) as [<-|]; [|discriminate PR]. split; [right; eexists; reflexivity|discriminate]. }
      apply NoDup_app_intro.
      + apply FinFun.Injective_map_NoDup; [intros a b; apply base_inj|apply ONCE; exact Hn].
      + apply distinct_ok in DI. clear PR. induction DI as [|t ss NI DI IH]; [constructor|]. cbn [map]. constructor; [|apply IH; intros u Hu; apply SS; right; exact Hu].
        intros HH. apply in_map_iff in HH. destruct HH as (u & EQ & Hu). apply named_inj in EQ; [destruct EQ as (_ & ->); contradiction|apply SS; right; exact Hu|apply SS; left; reflexivity].
      + intros nm H1 H2. apply in_map_iff in H1. destruct H1 as (p & <- & _). apply in_map_iff in H2. destruct H2 as (t & EQ & Ht). rewrite <- (named_nil md p) in EQ.
        destruct (SS t Ht) as (S1 & S2). apply named_inj in EQ; [destruct EQ as (_ & ->); congruence|exact S1|left; reflexivity].
    - destruct (covered_fused n nd Hn K F) as (_ & -> & _). constructor; [intros []|constructor].
  Qed.
  Lemma exported_ok : ExportSpec.well_formed (exported md ex ls).
  Proof. apply (C67_export_well_formed md ex ls); [exact WL|]. apply export_layers_some. exact AE. Qed.
  Lemma inputs_are : flat_map (ins_of md ex) ls = [(base md i, dims i)].
  Proof.
    destruct (in_split i ls Hi) as (l1 & l2 & EL). pose proof (wl_once _ _ WL) as ND. rewrite EL in ND.
    assert (Z : forall l, incl l ls -> ~ In i l -> flat_map (ins_of md ex) l = []).
    { induction l as [|n l IH]; intros II NI; [reflexivity|]. cbn [flat_map]. rewrite IH; [|intros a Ha; apply II; right; exact Ha|intros Ha; apply NI; right; exact Ha].
      assert (Hn : In n ls) by (apply II; left; reflexivity). destruct (kinds md ls n Hn) as [K|K]; [exfalso; apply NI; left; apply (ONE n Hn); exact K|].
      destruct (layer_value ninf q md ex s x val dims ls IN EV HX n Hn K) as (_ & _ & -> & _). reflexivity. }
    rewrite EL, flat_map_app. cbn [flat_map].
    rewrite (Z l1), (Z l2).
    - destruct (input_value ninf q md ex s x val dims ls WL IN EV HI i Hi) as (_ & _ & _ & -> & _); [apply (ONE i Hi); reflexivity|]. reflexivity.
    - intros a Ha. rewrite EL. apply in_or_app. right. right. exact Ha.
    - apply NoDup_remove_2 in ND. intros Ha. apply ND. apply in_or_app. right. exact Ha.
    - intros a Ha. rewrite EL. apply in_or_app. left. exact Ha.
    - apply NoDup_remove_2 in ND. intros Ha. apply ND. apply in_or_app. left. exact Ha.
  Qed.
  Lemma base_output n : In n ls -> n <> i -> In (base md n) (map n_output (s_nodes src)).
  Proof.
    intros Hn NE. destruct (produced_base n Hn) as [H|H]; [|exact H]. unfold src, reread in H. cbn [s_inputs exported g_inputs] in H. rewrite inputs_are in H. destruct H as [H|[]]. cbn [fst] in H. apply base_inj in H. congruence.
  Qed.
  Lemma src_formed : well_formed src (base md i) (base md o).
  Proof.
    destruct exported_ok as (ND & OR & _). constructor.
    - unfold src, reread. cbn [s_inputs exported g_inputs]. rewrite inputs_are. reflexivity.
    - apply base_output; [exact Ho|congruence].
    - exact ND.
    - intros H. change (defined_names src) with (ExportSpec.defined_names (exported md ex ls)) in H. unfold ExportSpec.defined_names in H. cbn [exported g_inputs g_init g_nodes] in H.
      apply (Permutation_in _ (flat_map_perm md ex ls AE)) in H. apply in_flat_map in H. destruct H as (n & Hn & H). apply keys_named in H; [|apply (wl_plain _ _ WL); exact Hn].
      destruct H as (sf & _ & E). symmetry in E. exact (named_not_empty md n sf E).
    - intros l1 nd l2 E nm Hnm. destruct (OR l1 nd l2 E nm Hnm) as [H|[H|[H|H]]]; [left; exact H| |right; right; left; exact H|right; right; right; exact H].
      right. left. cbn [exported g_inputs] in H. rewrite inputs_are in H. destruct H as [H|[]]. symmetry. exact H.
    - intros nm H NE.
      assert (BASE : forall n, In n ls -> nm = base md n -> exists nd, In nd (s_nodes src) /\ In nm (n_inputs nd)).
      { intros n Hn ->. assert (no : n <> o) by congruence. destruct (READ n Hn no) as (k & Hk & Hp). destruct (kinds md ls k Hk) as [K|K].
        - exfalso. rewrite (wl_sources _ _ WL k Hk (or_introl K)) in Hp. destruct Hp.
        - destruct (the_node k Hk K) as (e & nd & E & EN & _). exists nd. split.
          + unfold src, reread. cbn [s_nodes exported g_nodes]. apply in_flat_map. exists k. split; [exact Hk|]. unfold nodes_of. rewrite E, EN. left. reflexivity.
          + destruct (node_reads md ex k e nd E) as (more & ->); [rewrite EN; left; reflexivity|]. apply in_or_app. left. apply in_map. exact Hp. }
      destruct H as [->|H]; [apply (BASE i Hi eq_refl)|]. apply in_map_iff in H. destruct H as (nd & <- & H). destruct (node_cases nd H) as (n & Hn & K & _ & [(e & E & EN)|F]).
      + destruct (the_node n Hn K) as (e' & nd' & E' & EN' & EO). rewrite E in E'. injection E' as <-. rewrite EN in EN'. injection EN' as <-. rewrite EO in *. unfold output_name in *. destruct (fused md n) eqn:FF; [|apply (BASE n Hn eq_refl)].
        destruct (fused_parts md n) as (_ & FO). unfold fused_suffixes in FO. rewrite FF in FO. cbn [snd map] in FO. destruct (fst (export_fused md n)) as [|f fr] eqn:EF; [discriminate FO|].
        destruct (covered_fused n f Hn K) as (_ & EI & _); [rewrite EF; left; reflexivity|]. exists f. split; [|rewrite EI; left; reflexivity].
        unfold src, reread. cbn [s_nodes exported g_nodes]. apply in_flat_map. exists n. split; [exact Hn|]. unfold nodes_of. rewrite E, EF. apply in_or_app. right. left. reflexivity.
      + destruct (covered_fused n nd Hn K F) as (_ & _ & EO). rewrite EO in *. apply (BASE n Hn eq_refl).
  Qed.

  Lemma src_exclusive : exclusive src.
  Proof.
    intros l1 nd l2 j rest E OP EI other HO HJ.
    assert (H : In nd (s_nodes src)) by (rewrite E; apply in_or_app; right; left; reflexivity).
    assert (HO' : In other (s_nodes src)) by (rewrite E; apply in_or_app; apply in_app_or in HO; destruct HO as [HO|HO]; [left; exact HO|right; right; exact HO]).
    destruct (node_cases nd H) as (n & Hn & K & HN & [(e & EE & EN)|F]).
    2:{ exfalso. destruct (fused_node md ex n nd F) as (FF & _). unfold export_fused in F. rewrite FF in F. destruct (lact Rnum (md_layer Rnum md n)); cbn [fst] in F; try (destruct F; fail); destruct F as [<-|[]]; cbn in OP; intuition discriminate. }
    destruct (node_shape n e nd Hn K EE EN) as (_ & SH). destruct (SH OP) as (FL & FN).
    assert (ALONE : nodes_of md ex n = [nd]). { unfold nodes_of, export_fused. rewrite EE, EN, FN. reflexivity. }
    destruct (node_reads md ex n e nd EE) as (more & NR); [rewrite EN; left; reflexivity|]. pose proof (reads_prev n Hn K) as NE. unfold input_names in NR.
    destruct (prevs n) as [|p r] eqn:EP; [congruence|]. rewrite NR in EI. cbn [map Datatypes.app] in EI. injection EI as <- _.
    destruct (node_cases other HO') as (k & Hk & Kk & _ & [(ek & EEk & ENk)|Fk]).
    - destruct (node_shape k ek other Hk Kk EEk ENk) as ((ss & EIk & PR & _) & _). rewrite EIk in HJ. apply in_app_or in HJ. destruct HJ as [HJ|HJ].
      + unfold input_names in HJ. apply in_map_iff in HJ. destruct HJ as (p' & EB & HJ). apply base_inj in EB. subst p'.
        assert (k = n) by (apply (FLAT n p k Hn FL); [rewrite EP; left; reflexivity|exact Hk|exact HJ]). subst k. rewrite EE in EEk. injection EEk as <-. rewrite EN in ENk. injection ENk as <-.
        destruct exported_ok as (ND & _). unfold ExportSpec.defined_names in ND. cbn [exported g_inputs g_init g_nodes] in ND.
        assert (N2 : NoDup (map n_output (s_nodes src))).
        { unfold src, reread. cbn [s_nodes exported g_nodes]. revert ND. generalize (map fst (flat_map (ins_of md ex) ls)) as a, (map fst (flat_map (inits_of md ex) ls)) as b. clear. intros a b ND.
          rewrite app_assoc in ND. induction (a ++ b) as [|u v IH]; [exact ND|]. apply IH. inversion ND; assumption. }
        rewrite E, map_app in N2. cbn [map] in N2. apply NoDup_remove_2 in N2. apply N2. rewrite <- map_app. apply in_map. exact HO.
      + apply in_map_iff in HJ. destruct HJ as (t & EB & Ht). rewrite forallb_forall in PR. specialize (PR t Ht). rewrite <- (named_nil md p) in EB.
        destruct t as [|c t]; [discriminate PR|]. cbn [prefix] in PR. destruct (ascii_dec "_"%char c) as [<-|]; [|discriminate PR].
        apply named_inj in EB; [destruct EB as (_ & EB); discriminate|right; eexists; reflexivity|left; reflexivity].
    - destruct (covered_fused k other Hk Kk Fk) as (_ & EIk & _). rewrite EIk in HJ. destruct HJ as [HJ|[]]. exact (base_pre _ _ (eq_sym HJ)).
  Qed.
  Lemma run_in_table nm t : env nm = Some t -> exists n, In n ls /\ In (nm, t) (table ninf q md ex val dims n).
  Proof.
    unfold the_run. intros H. assert (G : In (nm, t) (flat_map (table ninf q md ex val dims) ls)).
    { revert H. generalize (flat_map (table ninf q md ex val dims) ls) as l. induction l as [|[k u] l IH]; intros H; [discriminate|]. cbn [lookup] in H.
      destruct (String.eqb_spec k nm) as [->|NE]; [injection H as ->; left; reflexivity|right; apply IH; exact H]. }
    apply in_flat_map in G. destruct G as (n & Hn & G). exists n. split; assumption.
  Qed.
  Lemma before_length n : In n ls -> ~ input_kind md n -> fused md n = true -> zlen (before_activation ninf q md val n) = prod (dims n).
  Proof.
    intros Hn K F. destruct (layer_value ninf q md ex s x val dims ls IN EV HX n Hn K) as (V & _). rewrite F in V.
    rewrite <- (lengths ninf q md ex s x val dims ls WL IN EV HI HX n Hn), V, zlen_map. reflexivity.
  Qed.
  Lemma fused_not_input n : In n ls -> fused md n = true -> ~ input_kind md n.
  Proof. intros Hn F K. pose proof (wl_plain _ _ WL n Hn K) as L. unfold fused in F. rewrite L in F. destruct (lkind Rnum (md_layer Rnum md n)); discriminate. Qed.
  Lemma src_runs : runs src (fun _ => md_pre Rnum md s x) env.
  Proof.
    destruct (some_run ninf q md ex s x val dims ls WL IN EV HI HX) as (E0 & RI & RT & RN).
    split; [exact E0|]. split; [|split; [exact RT|split]].
    - intros nm ds H. unfold src, reread in H. cbn [s_inputs exported g_inputs] in H. rewrite (RI nm ds H). rewrite inputs_are in H. destruct H as [H|[]]. injection H as <- <-. rewrite run_dims_id by exact Hi. reflexivity.
    - intros nd H. destruct (RN nd H) as (out & EO & NH). exists out. split; [exact EO|apply node_op; exact NH].
    - intros nm t H. destruct (run_in_table nm t H) as (n & Hn & HT). unfold table in HT. destruct HT as [HT|HT]; [|apply in_app_or in HT; destruct HT as [HT|HT]].
      + injection HT as <- <-. split; [exact (SZ n Hn)|]. apply (lengths ninf q md ex s x val dims ls WL IN EV HI HX n Hn).
      + destruct (fused md n) eqn:F; [|destruct HT]. destruct HT as [HT|[]]. injection HT as <- <-. split; [exact (SZ n Hn)|]. apply before_length; [exact Hn|apply fused_not_input; assumption|exact F].
      + apply (ST nm). apply in_flat_map. exists n. split; assumption.
  Qed.
  Lemma src_annotated : annotated src env.
  Proof.
    assert (BASE : forall n, In n ls -> announced src (base md n) (dims n)).
    { intros n Hn. unfold announced, src, reread. cbn [s_value_info]. apply in_or_app. right. apply in_or_app. left. unfold inferred_dims. apply in_flat_map. exists n. split; [exact Hn|left; reflexivity]. }
    assert (OUT : forall n, In n ls -> announced src (output_name md n) (dims n)).
    { intros n Hn. unfold output_name. destruct (fused md n) eqn:F; [|apply BASE; exact Hn]. unfold announced, src, reread. cbn [s_value_info]. apply in_or_app. right. apply in_or_app. left.
      unfold inferred_dims. apply in_flat_map. exists n. split; [exact Hn|]. rewrite F. right. left. reflexivity. }
    constructor.
    - intros nm [H|H].
      + unfold src, reread in H. cbn [s_inputs exported g_inputs] in H. rewrite inputs_are in H. destruct H as [<-|[]]. exists (dims i). apply BASE. exact Hi.
      + apply in_map_iff in H. destruct H as (nd & <- & H). destruct (node_cases nd H) as (n & Hn & K & _ & [(e & E & EN)|F]).
        * destruct (the_node n Hn K) as (e' & nd' & E' & EN' & EO). rewrite E in E'. injection E' as <-. rewrite EN in EN'. injection EN' as <-. rewrite EO. exists (dims n). apply OUT. exact Hn.
        * destruct (covered_fused n nd Hn K F) as (_ & _ & EO). rewrite EO. exists (dims n). apply BASE. exact Hn.
    - intros nm ds _ H. destruct (announced_dims nm ds H) as (n & Hn & -> & _). destruct (POS n Hn) as (P1 & P2 & P3). split; [exact P2|]. split; [exact (SZ n Hn)|]. rewrite run_dims_id by exact Hn. exact P3.
    - intros nm ds H. destruct (announced_dims nm ds H) as (n & Hn & -> & [->|(F & ->)]); rewrite run_dims_id by exact Hn.
      + eexists. apply (run_base ninf q md ex s x val dims ls WL IN EV HI HX n Hn).
      + eexists. apply (run_of ninf q md ex s x val dims ls WL IN EV HI HX n); [exact Hn|]. unfold table. rewrite F. right. left. reflexivity.
  Qed.
End Trip.
