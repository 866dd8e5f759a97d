(** * C80: an exported ONNX graph, read back by the tool, is the same network.
    Export.v models the exporter (C67, C68), OnnxModel.v the importer (C72);
    [reread] (RoundTrip.v) is the exported file as the importer reads it. *)
From Coq Require Import String.
From Coq Require Import ZArith List Lia Bool Reals Lra QArith Permutation.
Import ListNotations.
Open Scope Z_scope.
From Verif Require Import CMem Tensor Num RealInst Activation Conv Pooling Movement MovementProofs Pad Linear Reduce Graph GraphSpec LayerKinds Net NetProofs ModelProofs PropertiesNet PropertiesGraph
  OnnxSpec OnnxOpsProofs OnnxWindowSpec OnnxLinearSpec OnnxMiscSpec ExportSpec Export ExportNames ExportRun ExportDet ExportMeaning PropertiesExport PropertiesExportMeaning.
From Verif Require Broadcast BroadcastProofs.
From Verif Require Import GraphProofs4 OnnxModelSpec OnnxModel OnnxModelNames PropertiesOnnxModel RoundTrip.
Open Scope string_scope.
Open Scope list_scope.
Open Scope Z_scope.

(** [ls] are the layers exported, [dims] the dimensions of their tensors, [i]
    the input layer and [o] the output layer. *)
Record reads_back (md : model Rnum) (ex : nat -> extra) (dims : nat -> list Z) (ls : list nat) (i o : nat) : Prop := {
  rb_listed : well_listed md ls;
  rb_layers : incl ls (dnn (md_graph Rnum md));
  (** one sample, of rank one to four *)
  rb_dims : forall n, In n ls -> Forall (fun d => 0 < d) (dims n) /\ 1 <= zlen (dims n) <= 4 /\ (zlen (dims n) = 4 -> coord 0 (dims n) = 1);
  rb_input : In i ls /\ forall n, In n ls -> (input_kind md n <-> n = i);
  rb_input_dims : dims i = x_shape (ex i);
  (** every other layer is written correctly (C68), and of a kind that is read back *)
  rb_exportable : forall n, In n ls -> ~ input_kind md n -> exportable (md_layer Rnum md n) (ex n) (map dims (previous_layer (md_graph Rnum md) n)) (dims n);
  rb_reimportable : forall n, In n ls -> ~ input_kind md n -> reimportable (md_layer Rnum md n) (List.length (previous_layer (md_graph Rnum md) n));
  rb_weights : forall g nm t, export_layers md ex ls = Some g -> In (nm, t) (g_init g) -> sized_tensor t;
  (** one output, which the exporter declares with its dimensions *)
  rb_output : In o ls /\ i <> o;
  rb_used : forall n, In n ls -> n <> o -> exists k, In k ls /\ In k (next_layer (md_graph Rnum md) n) /\ In n (previous_layer (md_graph Rnum md) k);
  rb_declared : declared_shape md ex o = dims o;
  rb_once : forall n, In n ls -> NoDup (previous_layer (md_graph Rnum md) n);
  (** the operand of a Flatten layer is read by no other layer *)
  rb_flatten : forall n p k, In n ls -> (exists cl C H W, lk Rnum md n = KFlatten Rnum cl C H W) ->
    In p (previous_layer (md_graph Rnum md) n) -> In k ls -> In p (previous_layer (md_graph Rnum md) k) -> k = n }.

Section Use.
  Context (ninf : R) (q : Q -> R) (md : model Rnum) (ex : nat -> extra) (dims : nat -> list Z) (ls : list nat) (i o : nat) (opset : Z)
    (s : schedule) (x : list R) (val : nat -> list R).
  Hypotheses (RB : reads_back md ex dims ls i o) (OPS : 13 <= opset) (EV : evaluates (documented_net Rnum ninf q md s) x val)
    (LX : zlen (md_pre Rnum md s x) = prod (dims i)).
  Let src := reread opset (inferred_dims md dims ls) (exported md ex ls).
  Let env := the_run ninf q md ex val dims ls.
  Lemma HI n : In n ls -> input_kind md n -> dims n = x_shape (ex n) /\ zlen (md_pre Rnum md s x) = prod (dims n).
  Proof. intros Hn K. apply (proj2 (rb_input _ _ _ _ _ _ RB) n Hn) in K. subst n. split; [apply (rb_input_dims _ _ _ _ _ _ RB)|exact LX]. Qed.
  Lemma export_ok : export_layers md ex ls = Some (exported md ex ls).
  Proof. eapply is_exported; [apply RB|apply RB|exact EV|exact HI|apply RB]. Qed.
  Lemma SINK n : In n ls -> next_layer (md_graph Rnum md) n = [] -> n = o.
  Proof. intros Hn E. destruct (Nat.eq_dec n o) as [|NE]; [assumption|]. destruct (rb_used _ _ _ _ _ _ RB n Hn NE) as (k & _ & Hk & _). rewrite E in Hk. destruct Hk. Qed.
  Lemma READ n : In n ls -> n <> o -> exists k, In k ls /\ In n (previous_layer (md_graph Rnum md) k).
  Proof. intros Hn NE. destruct (rb_used _ _ _ _ _ _ RB n Hn NE) as (k & Hk & _ & Hp). exists k. split; assumption. Qed.
  Lemma trip : OnnxModelSpec.well_formed src (base md i) (base md o) /\ all_covered src /\ exclusive src /\ OnnxModelSpec.runs src (fun _ => md_pre Rnum md s x) env /\
    annotated src env /\ env (base md o) = Some (TFloat (dims o) (val o)) /\ reads_once src.
  Proof.
    pose proof HI as HI'. pose proof SINK as SK. pose proof READ as RD.
    destruct RB as [WL IN PO (Hi & ONE) _ HX RX ST (Ho & NE) _ DE ON FL].
    assert (ST' : forall nm t, In (nm, t) (flat_map (inits_of md ex) ls) -> sized_tensor t) by (intros nm t H; apply (ST _ nm t export_ok H)).
    split; [|split; [|split; [|split; [|split; [|split]]]]].
    - eapply src_formed; eassumption.
    - eapply src_covered; eassumption.
    - eapply src_exclusive; eassumption.
    - eapply src_runs; eassumption.
    - eapply src_annotated; eassumption.
    - eapply run_base; eassumption.
    - eapply src_once; eassumption.
  Qed.
End Use.

(** [val] are the values of the documented layers of [md] on the input [x].
    The exporter returns a graph; the importer reads it back, whatever the
    convolution algorithm; the output of the network it builds, on the image
    given to the exported graph, is the value of the output layer of [md]. *)
Theorem C80_round_trip_partial : forall (impl : conv_impl) (ninf : R) (q : Q -> R) (md : model Rnum) (ex : nat -> extra) (dims : nat -> list Z) (ls : list nat) (i o : nat)
    (opset : Z) (s : schedule) (x : list R) (val : nat -> list R),
  let image := md_pre Rnum md s x in
  reads_back md ex dims ls i o -> 13 <= opset -> evaluates (documented_net Rnum ninf q md s) x val -> zlen image = prod (dims i) ->
  exists g md' s', export_layers md ex ls = Some g /\ load_model impl (reread opset (inferred_dims md dims ls) g) = Some (md', s') /\ tri_topo (md_graph Rnum md') = Some s' /\
  forall val', evaluates (documented_net Rnum ninf q md' s') image val' -> md_post Rnum md' s' (val' (last (order s') O)) = val o.
Proof.
  intros impl ninf q md ex dims ls i o opset s x val image RB OPS EV LX.
  destruct (trip ninf q md ex dims ls i o opset s x val RB OPS EV LX) as (WF & CV & EXC & RU & AN & EO & _).
  destruct (C72_import_keeps_the_function_partial impl ninf q _ _ _ _ _ _ _ WF CV EXC RU AN EO) as (md' & s' & LM & ET & F).
  exists (exported md ex ls), md', s'. split; [eapply export_ok; eassumption|]. split; [exact LM|]. split; [exact ET|exact F].
Qed.
Print Assumptions C80_round_trip_partial.

(** The C program generated from a channels_first network, and the one
    generated after exporting it and reading the file back, return the same
    output on the same input. *)
Theorem C80_generated_programs_partial : forall (ninf : R) (q : Q -> R) (md : model Rnum) (ex : nat -> extra) (dims : nat -> list Z) (i : nat) (opset : Z) (s : schedule),
  supported Rnum md i -> md_last Rnum md = false -> tri_topo (md_graph Rnum md) = Some s ->
  reads_back md ex dims (order s) i (last (order s) O) -> 13 <= opset ->
  exists g md' s', export_layers md ex (order s) = Some g /\ load_model SixLoops (reread opset (inferred_dims md dims (order s)) g) = Some (md', s') /\
    tri_topo (md_graph Rnum md') = Some s' /\
  forall (mem0 mem0' : mem R), declared (python_net Rnum ninf q md s) s mem0 -> declared (python_net Rnum ninf q md' s') s' mem0' ->
    mem0' NnIn = mem0 NnIn -> zlen (mem0 NnIn) = prod (dims i) ->
  exists mem1 mem1', inference (python_net Rnum ninf q md s) s mem0 = Some mem1 /\ inference (python_net Rnum ninf q md' s') s' mem0' = Some mem1' /\ mem1' NnOut = mem1 NnOut.
Proof.
  intros ninf q md ex dims i opset s SP ML HS RB OPS.
  assert (PRE : forall x, md_pre Rnum md s x = x) by (intros x; unfold md_pre; destruct (lk Rnum md (hd O (order s))); rewrite ?ML; reflexivity).
  assert (POST : forall x, md_post Rnum md s x = x) by (intros x; unfold md_post; destruct (out_channels Rnum (lk Rnum md (last (order s) O))) as [[[C H] W]|]; rewrite ?ML; reflexivity).
  assert (STEP : forall x, zlen x = prod (dims i) -> exists val md' s', evaluates (documented_net Rnum ninf q md s) x val /\
    load_model SixLoops (reread opset (inferred_dims md dims (order s)) (exported md ex (order s))) = Some (md', s') /\ tri_topo (md_graph Rnum md') = Some s' /\
    forall mem0, declared (python_net Rnum ninf q md' s') s' mem0 -> mem0 NnIn = x -> exists mem1, inference (python_net Rnum ninf q md' s') s' mem0 = Some mem1 /\ mem1 NnOut = val (last (order s) O)).
  { intros x LX. destruct (model_values_exist Rnum ninf q md i s SP HS x) as (val & EV). assert (LX' : zlen (md_pre Rnum md s x) = prod (dims i)) by (rewrite PRE; exact LX).
    destruct (trip ninf q md ex dims _ i _ opset s x val RB OPS EV LX') as (WF & CV & EXC & RU & AN & EO & RO).
    destruct (C72_generated_program_partial ninf q _ _ _ _ _ _ _ WF CV EXC RU AN EO RO) as (md' & s' & LM & ET & F).
    exists val, md', s'. split; [exact EV|]. split; [exact LM|]. split; [exact ET|]. intros mem0 D E. destruct (F mem0 D) as (mem1 & E1 & E2 & _); [rewrite E, PRE; reflexivity|]. exists mem1. split; assumption. }
  assert (L0 : zlen (repeat 0%R (Z.to_nat (prod (dims i)))) = prod (dims i)).
  { unfold zlen. rewrite repeat_length. apply Z2Nat.id. apply prod_nonneg. eapply Forall_impl; [|apply (rb_dims _ _ _ _ _ _ RB i); apply RB]. cbn. intros. lia. }
  destruct (STEP _ L0) as (val0 & md' & s' & EV0 & LM & ET & _). assert (LX0 : zlen (md_pre Rnum md s (repeat 0%R (Z.to_nat (prod (dims i))))) = prod (dims i)) by (rewrite PRE; exact L0).
  exists (exported md ex (order s)), md', s'. split; [eapply export_ok; eassumption|]. split; [exact LM|]. split; [exact ET|].
  intros mem0 mem0' D D' EIN LX. destruct (STEP _ LX) as (val & md2 & s2 & EV & LM2 & ET2 & F). rewrite LM in LM2. injection LM2 as <- <-.
  destruct (F mem0' D' EIN) as (mem1' & I2 & O2).
  destruct (C08_inference_computes_the_network Rnum ninf q md i SP) as (s3 & HS3 & HC). rewrite HS in HS3. injection HS3 as <-.
  destruct (HC mem0 D) as (val1 & mem1 & EV1 & I1 & O1 & _). exists mem1, mem1'. split; [exact I1|]. split; [exact I2|].
  rewrite O1, O2, POST. symmetry. apply (evaluates_unique (documented_net Rnum ninf q md s) s (supported_runnable Rnum md i s SP HS) _ _ _ EV1 EV). apply (rb_layers _ _ _ _ _ _ RB), (proj1 (rb_output _ _ _ _ _ _ RB)).
Qed.
Print Assumptions C80_generated_programs_partial.

(** ** Example: input of shape (1,2,4,4); a convolution with a fused ReLu whose
    tensor is read by a Tanh layer and by a Concat layer; the Softmax of the
    concatenation along the last axis. *)
Definition ex80_graph : graph := of_edges 5 [] [(0, 1); (1, 2); (1, 3); (2, 3); (3, 4)]%nat.
Definition ex80_model : model Rnum := mkModel Rnum ex80_graph
  (fun n => match n with
    | 0 => mkLayer Rnum (KInput4 Rnum 2 4 4) LinearAct
    | 1 => mkLayer Rnum (KConv Rnum SixLoops ex67_conv (repeat 1%R 54) [1; 2; 3]%R) ReLu
    | 2 => mkLayer Rnum (KActivation Rnum 48) TanH
    | 3 => mkLayer Rnum (KConcat Rnum 1 6 4 4 [(3, 4, 4); (3, 4, 4)]%Z) LinearAct
    | _ => mkLayer Rnum (KSoftmax Rnum 6 4 4 3) LinearAct end)%nat false.
Ltac five H := cbn in H; destruct H as [<-|[<-|[<-|[<-|[<-|[]]]]]].
Example C80_example : exists s,
  supported Rnum ex80_model 0 /\ md_last Rnum ex80_model = false /\ tri_topo (md_graph Rnum ex80_model) = Some s /\
  order s = [0; 1; 2; 3; 4]%nat /\ reads_back ex80_model ex67_extra ex68_dims (order s) 0 4.
Proof.
  destruct (tri_topo (md_graph Rnum ex80_model)) as [s|] eqn:ES; [|vm_compute in ES; discriminate]. exists s.
  assert (OS : order s = [0; 1; 2; 3; 4]%nat) by (vm_compute in ES; injection ES as <-; reflexivity).
  split; [|split; [reflexivity|split; [reflexivity|split; [exact OS|]]]].
  - constructor.
    + apply of_edges_linked. reflexivity.
    + apply (of_edges_acyclic _ _ _ (fun i => i)). reflexivity.
    + apply of_edges_no_repeat. repeat constructor; cbn; intuition congruence.
    + intros n Hn. five Hn; (split; [intros E; first [discriminate E|eexists; reflexivity]|intros (w & E); first [discriminate E|reflexivity]]).
    + apply of_edges_constants. reflexivity.
    + apply of_edges_single_input. reflexivity.
    + left. exists 2, 4, 4. split; [reflexivity|lia].
    + intros n Hn Hp. five Hn; try (exfalso; apply Hp; reflexivity).
      all: repeat split; try (left; exact I); try exact KerasOps.zero_product_R; try (vm_compute; congruence).
      all: try (cbn; repeat constructor; vm_compute; congruence).
      all: try (cbn; tauto).
      all: try (repeat constructor; cbn; tauto).
    + intros n p cl C H W Hn EK EP. five Hn; discriminate.
  - rewrite OS. clear s ES OS. constructor.
    + constructor.
      * repeat constructor; cbn; intuition discriminate.
      * intros l1 n l2 E p Hp.
        do 5 (destruct l1 as [|? l1]; cbn in E; [injection E as <- _; cbn in Hp; intuition subst; cbn; auto|injection E as <- E]).
        destruct l1; discriminate.
      * intros n Hn HK. five Hn; try reflexivity; destruct HK.
      * intros n Hn [H|(w & H)]; five Hn; try reflexivity; try (destruct H; fail); discriminate H.
      * intros n k Hn H. five Hn; discriminate.
    + intros n Hn. exact Hn.
    + intros n Hn. five Hn; (split; [repeat constructor|]; split; [vm_compute; split; discriminate|reflexivity]).
    + split; [left; reflexivity|]. intros n Hn. five Hn; (split; [intros K; try reflexivity; destruct K|intros E; try discriminate; exact I]).
    + reflexivity.
    + intros n Hn K. five Hn; [exfalso; apply K; exact I| | | |].
      * split; [exact I|]. cbn. repeat split; try lia.
      * split; [exact I|]. split; [reflexivity|exact I].
      * split; [exact I|]. cbn. repeat split; try lia; try discriminate. repeat constructor; lia.
      * split; [exact I|]. cbn. repeat split; try lia; try (repeat constructor; lia).
    + intros n Hn K. five Hn; [exfalso; apply K; exact I| | | |]; cbn; repeat split; try exact I; try (vm_compute; congruence).
    + intros g nm t E H. injection E as <-. cbn in H.
      repeat (destruct H as [H|H]; [injection H as <- <-; split; [repeat constructor; lia|reflexivity]|]). destruct H.
    + split; [cbn; auto 9|discriminate].
    + intros n Hn NE. five Hn; [exists 1%nat|exists 2%nat|exists 3%nat|exists 4%nat|congruence]; cbn; auto 8.
    + reflexivity.
    + intros n Hn. five Hn; repeat constructor; cbn; intuition discriminate.
    + intros n p k Hn (cl & C & H & W & E). five Hn; discriminate.
Qed.

(** ** Networks that are written and cannot be read back.  The importer has no
    operator "Dense", "Silu" or "Ave" (Average), parser_ONNX.py:122-124; it
    takes the operand name of a reduction or of a Tile apart into characters
    (create_layer.py, C72_operand_name_refuted), and the exporter gives no
    tensor a name of one character. *)
Definition not_read_back (md : model Rnum) (n : nat) : Prop :=
  lact Rnum (md_layer Rnum md n) = Silu \/
  match lk Rnum md n with
  | KDense _ _ _ _ _ | KBroadcast _ Broadcast.BAvg _ _ _ => True
  | KReduce _ _ _ _ _ _ _ | KTile _ _ _ _ _ _ _ => previous_layer (md_graph Rnum md) n <> []
  | _ => False
  end.
Lemma no_operator impl m nd : In nd (s_nodes m) -> In (n_op nd) ["Dense"; "Silu"; "Ave"] -> load_model impl m = None.
Proof.
  intros Hn IO. unfold load_model. destruct (OnnxOps.all_some (map (import_node impl m) (s_nodes m))) as [nds|] eqn:EN; [|reflexivity]. exfalso.
  destruct (all_some_in _ _ _ EN) as (A & _). destruct (A nd Hn) as (r & Er & _). clear A EN Hn. destruct nd as [op a ins o]. cbn [n_op] in IO.
  destruct IO as [<-|[<-|[<-|[]]]]; unfold import_node, import_layer in Er; cbn [n_op n_inputs n_output] in Er; destruct ins; cbn in Er; discriminate.
Qed.
Lemma nodes_in md ex ls g n nd : export_layers md ex ls = Some g -> In n ls -> In nd (nodes_of md ex n) -> In nd (g_nodes g).
Proof. intros E Hn H. destruct (export_layers_eq md ex ls g E) as (-> & _). apply in_flat_map. exists n. split; assumption. Qed.
Lemma long_names md ex ls g ch : inputs_plain md ls -> export_layers md ex ls = Some g -> ~ In (String ch EmptyString) (map fst (g_inputs g) ++ map fst (g_init g) ++ map n_output (g_nodes g)).
Proof.
  intros IP E H. destruct (export_layers_eq md ex ls g E) as (-> & HA). cbn [g_inputs g_init g_nodes] in H.
  apply (Permutation_in _ (flat_map_perm md ex ls HA)) in H. apply in_flat_map in H. destruct H as (n & Hn & H).
  apply keys_named in H; [|apply IP; exact Hn]. destruct H as (s & _ & E'). unfold named, base in E'.
  assert (IL : In (layer_name (md_layer Rnum md n)) class_names) by apply layer_name_in. unfold class_names in IL. cbn [In] in IL.
  repeat (destruct IL as [IL|IL]; [rewrite <- IL in E'; cbn [String.append] in E'; discriminate|]). destruct IL.
Qed.
Lemma base_not_empty md n : exists ch suf, base md n = String ch suf.
Proof.
  unfold base. assert (IL : In (layer_name (md_layer Rnum md n)) class_names) by apply layer_name_in. unfold class_names in IL. cbn [In] in IL.
  repeat (destruct IL as [IL|IL]; [rewrite <- IL; eexists _, _; reflexivity|]). destruct IL.
Qed.
Theorem C80_not_read_back_refuted : forall (impl : conv_impl) (opset : Z) (inferred : list (string * list Z)) (md : model Rnum) (ex : nat -> extra) (ls : list nat) (g : onnx_graph) (n : nat),
  export_layers md ex ls = Some g -> (forall k, In k ls -> input_kind md k -> lact Rnum (md_layer Rnum md k) = LinearAct) ->
  In n ls -> not_read_back md n -> load_model impl (reread opset inferred g) = None.
Proof.
  intros impl opset inferred md ex ls g n E IP Hn NR.
  destruct (export_layers_eq md ex ls g E) as (_ & HA). destruct (HA n Hn) as (i & e & EI & EE). clear HA.
  assert (NI : forall nd, In nd (fst e ++ fst (export_fused md n)) -> In nd (s_nodes (reread opset inferred g))).
  { intros nd H. cbn [reread s_nodes]. apply (nodes_in _ _ _ _ n _ E Hn). unfold nodes_of. rewrite EE. exact H. }
  destruct NR as [SI|NR].
  - unfold export_fused, fused in NI. rewrite SI in NI. unfold export_layer, fused, lk in EE, NI.
    destruct (lkind Rnum (md_layer Rnum md n)) eqn:EK.
    all: try (eapply no_operator; [apply NI, in_or_app; right; left; reflexivity|right; left; reflexivity]).
    rewrite SI in EE. injection EE as <-. eapply no_operator; [apply NI; left; reflexivity|right; left; reflexivity].
  - clear EI. unfold lk in NR. unfold export_layer in EE.
    destruct (lkind Rnum (md_layer Rnum md n)) eqn:EK; try (destruct NR; fail).
    + injection EE as <-. eapply no_operator; [apply NI; left; reflexivity|left; reflexivity].
    + unfold input_names in EE. destruct (previous_layer (md_graph Rnum md) n) as [|p r]; [congruence|]. cbn [map Datatypes.app] in EE.
      destruct (base_not_empty md p) as (ch & suf & EB). rewrite EB in EE. injection EE as <-.
      eapply (apart_fails impl _ _ "" ch suf); [apply NI; left; reflexivity|left; reflexivity|reflexivity|].
      exact (long_names md ex ls g ch IP E).
    + destruct k; try (destruct NR; fail). destruct cst as [c|].
      * injection EE as <-. eapply no_operator; [apply NI; left; reflexivity|right; right; left; reflexivity].
      * replace (existsb (String.eqb (three (broadcast_name Broadcast.BAvg))) ["Add"; "Sub"; "Mul"; "Div"]) with false in EE by reflexivity.
        rewrite Bool.andb_false_r in EE. injection EE as <-. eapply no_operator; [apply NI; left; reflexivity|right; right; left; reflexivity].
    + unfold input_names in EE. destruct (previous_layer (md_graph Rnum md) n) as [|p r]; [congruence|]. cbn [map Datatypes.app] in EE.
      destruct (base_not_empty md p) as (ch & suf & EB). rewrite EB in EE. injection EE as <-.
      eapply (apart_fails impl _ _ "" ch suf); [apply NI; left; reflexivity|destruct k; cbn; tauto|reflexivity|].
      exact (long_names md ex ls g ch IP E).
Qed.
Print Assumptions C80_not_read_back_refuted.

(** A Dense layer after an input of two elements: C68 proves the exported graph
    right, and the tool cannot read it. *)
Definition dense80 : model Rnum := mkModel Rnum two_graph
  (fun n => match n with O => mkLayer Rnum (KInput Rnum 2) LinearAct | _ => mkLayer Rnum (KDense Rnum 2 2 [1; 2; 3; 4]%R [0; 1]%R) ReLu end) false.
Example C80_example_dense : exists g,
  export_layers dense80 (image_of [1; 2]) [0; 1]%nat = Some g /\ not_read_back dense80 1 /\
  exportable (md_layer Rnum dense80 1) (image_of [1; 2] 1) [[1; 2]] [1; 2] /\ inputs_plain dense80 [0; 1]%nat /\
  forall impl inferred, load_model impl (reread 13 inferred g) = None.
Proof.
  eexists. assert (IP : inputs_plain dense80 [0; 1]%nat) by (intros n [<-|[<-|[]]] K; [reflexivity|destruct K]).
  split; [reflexivity|]. split; [right; exact I|]. split; [|split; [exact IP|]].
  - split; [exact I|]. cbn. split; [lia|]. split; [lia|]. exists [1]. repeat constructor.
  - intros impl inferred. eapply (C80_not_read_back_refuted impl 13 inferred dense80 _ [0; 1]%nat _ 1); [reflexivity|exact IP|right; left; reflexivity|right; exact I].
Qed.

(** ** Networks that are read back as other networks.  The exporter drops the
    axis of a Softmax layer (acetone_to_onnx_layer.py:432-446). *)
Definition softmax80 : model Rnum := mkModel Rnum two_graph
  (fun n => match n with O => mkLayer Rnum (KInput4 Rnum 2 2 1) LinearAct | _ => mkLayer Rnum (KSoftmax Rnum 2 2 1 1) LinearAct end) false.
Definition dims80 (n : nat) : list Z := [1; 2; 2; 1].
Theorem C80_changed_refuted : forall (impl : conv_impl), exists g md' s s',
  export_layers softmax80 (image_of [1; 2; 2; 1]) [0; 1]%nat = Some g /\
  load_model impl (reread 13 (inferred_dims softmax80 dims80 [0; 1]%nat) g) = Some (md', s') /\ tri_topo (md_graph Rnum softmax80) = Some s /\ 
  forall ninf q val val', let x := [0; 0; ln 2; 0]%R in
  evaluates (documented_net Rnum ninf q softmax80 s) x val -> evaluates (documented_net Rnum ninf q md' s') x val' ->
  val 1%nat = [1/3; 1/2; 2/3; 1/2]%R /\ val' 1%nat = [1; 1; 1; 1]%R.
Proof.
  intros impl. eexists _, _, _, _. split; [reflexivity|]. split; [vm_compute; reflexivity|]. split; [reflexivity|].
  intros ninf q val val' x E E'.
  pose proof (E O (or_introl eq_refl)) as E0. pose proof (E 1%nat (or_intror (or_introl eq_refl))) as E1.
  pose proof (E' O (or_introl eq_refl)) as E0'. pose proof (E' 1%nat (or_intror (or_introl eq_refl))) as E1'.
  change (val 0%nat = x) in E0. change (val' 0%nat = x) in E0'.
  change (val 1%nat = softmax_py Rnum 2 2 1 1 (val 0%nat)) in E1. 
  change (val' 1%nat = softmax_py Rnum 2 2 1 3 (val' 0%nat)) in E1'.
  rewrite E1, E1', E0, E0'.
  assert (L : exp (ln 2) = 2%R) by (apply exp_ln; lra).
  split; cbv -[exp ln IZR Rplus Rdiv Rinv Rminus Rmult Rltb]; rewrite ?exp_0, ?L; repeat f_equal; field.
Qed.
Print Assumptions C80_changed_refuted.
