(** * C76: the whole constructor - import, optimisation, choice of the
    implementations - keeps what the network computes.
    [optimise N (initial N md s)]: the optimiser on the sorted layers (Pattern.v,
    C36); [versioned versions st]: the argument versions applied to the optimised
    layers (Pipeline.v); [pn_inference]: the C function generated from them;
    [pn_compute_inference]: the Python inference on them.
    The conditions are those of C36 on the imported model ([fusion_safe],
    [StronglySorted lt (order s)]: numbers increase along the layers) and of C73
    on the remaining convolutions ([usable_after]); the refuted theorems of C36,
    C39, C16, C17 show that they are needed. *)
From Coq Require Import String.
From Coq Require Import ZArith List Lia Bool Reals QArith Sorted.
Import ListNotations.
Open Scope string_scope.
Open Scope list_scope.
Open Scope Z_scope.
From Verif Require Import CMem Num RealInst Graph GraphSpec Net NetProofs LayerKinds LayerKindsProofs ModelProofs Conv Versioning Variants VariantsProofs Pattern PatternProofs PatternProofs2 PatternProofs3 PatternProofs4 FusionSafe Pipeline PropertiesNet PropertiesVariants.
From Verif Require PropertiesPattern NumInst ModelProofs ExportSpec OnnxModelOps OnnxModelOps3 OnnxModelSpec OnnxModel OnnxModelNet PropertiesOnnxModel KerasSpec Keras KerasOps KerasModel KerasRun TorchSpec Torch TorchOps TorchModel TorchRun PropertiesKeras PropertiesTorch.

(** What the optimised program with the chosen implementations returns. *)
Definition generated_returns (N : num) (ninf : T N) (q : Q -> T N) (md : model N) (s : schedule) (value_of : list (T N) -> list (T N) -> Prop) : Prop :=
  StronglySorted lt (order s) -> fusion_safe N md 0 ->
  exists st, optimise N (initial N md s) = Done N st /\
  forall versions, usable_after N versions st ->
  exists st', versioned N versions st = Some st' /\
  forall m : mem (T N), pn_declared N ninf q st' m ->
  exists m', pn_inference N ninf q st' m = Some m' /\ value_of (m NnIn) (m' NnOut) /\
    (python_safe N md -> pn_compute_inference N ninf q st' (m NnIn) = Some (m' NnOut)).

Theorem C76_pipeline_partial : forall (N : num) (ninf : T N) (q : Q -> T N) (md : model N) s,
  zero_product_law N -> mul_comm_law N -> supported N md 0 -> tri_topo (md_graph N md) = Some s ->
  generated_returns N ninf q md s (fun x y => exists val, evaluates (documented_net N ninf q md s) x val /\ y = md_post N md s (val (last (order s) O))).
Proof.
  intros N ninf q md s Z0 MC SP HS IDS FS.
  destruct (optimised_code N ninf q md 0 s SP HS IDS FS) as (st & E & PV & PY & VAL).
  exists st. split; [exact E|]. intros versions U. destruct (usable_versioned N versions st U) as (ch & EV & A).
  exists (reimplemented N ch st). split; [exact EV|]. intros m D.
  pose proof (pinv_reimplemented N Z0 MC ch 0 st PV A) as PV'.
  destruct (model_values_exist N ninf q md 0 s SP HS (m NnIn)) as (val & Hv).
  destruct (VAL (m NnIn) val Hv) as (val' & Hv' & EO).
  assert (Hv2 : evaluates (documented_net N ninf q (model_of N (reimplemented N ch st)) (schedule_of N (reimplemented N ch st))) (m NnIn) val').
  { rewrite model_same, schedule_same. apply evaluates_same. exact Hv'. }
  assert (EP : forall x, md_post N (model_of N (reimplemented N ch st)) (schedule_of N (reimplemented N ch st)) x = md_post N (model_of N st) (schedule_of N st) x).
  { intros x. rewrite model_same, schedule_same. apply post_same. }
  destruct (pinv_code N ninf q 0 (reimplemented N ch st) m PV' D val' Hv2) as (m' & EI & ER & _).
  change (pn_layers N (reimplemented N ch st)) with (pn_layers N st) in ER. rewrite EP, EO in ER.
  exists m'. split; [exact EI|]. split; [exists val; split; [exact Hv|exact ER]|].
  intros PS. rewrite ER. rewrite (fun A B => pinv_python N ninf q 0 (reimplemented N ch st) (m NnIn) PV' A B val' Hv2).
  - rewrite EP. f_equal. exact EO.
  - apply python_reimplemented. apply (PY PS).
  - rewrite (D NnIn). unfold array_size. cbn [schedule_of order].
    pose proof (sp_single N _ 0%nat (pv_supported N 0 _ PV')) as (H & _). cbn in H.
    cbn [reimplemented pn_layers]. destruct (pn_layers N st); [discriminate|]. injection H as ->. reflexivity.
Qed.
Print Assumptions C76_pipeline_partial.

(** ** Imported models: the program returns what the framework specifies. *)
Lemma generated_weaken N ninf q md s (P Q' : list (T N) -> list (T N) -> Prop) :
  (forall x y, P x y -> Q' x y) -> generated_returns N ninf q md s P -> generated_returns N ninf q md s Q'.
Proof.
  intros I G S F. destruct (G S F) as (st & E & H). exists st. split; [exact E|]. intros v U. destruct (H v U) as (st' & EV & H'). exists st'. split; [exact EV|].
  intros m D. destruct (H' m D) as (m' & EI & X & Y). exists m'. split; [exact EI|]. split; [apply I; exact X|exact Y].
Qed.
Theorem C76_onnx_partial : forall (ninf : R) (q : Q -> R) (m : OnnxModelSpec.source) (input output : string) inputs env ods y,
  OnnxModelSpec.well_formed m input output -> OnnxModelSpec.all_covered m -> OnnxModelSpec.exclusive m -> OnnxModelSpec.runs m inputs env ->
  OnnxModelSpec.annotated m env -> env output = Some (ExportSpec.TFloat ods y) -> OnnxModelSpec.reads_once m ->
  exists md s, OnnxModel.load_model SixLoops m = Some (md, s) /\
    generated_returns Rnum ninf q md s (fun x z => x = inputs input -> z = y).
Proof.
  intros ninf q m input output inputs env ods y WF CV EX RU AN EO RO.
  destruct (OnnxModelNet.loaded m input output SixLoops inputs env WF RU AN CV EX) as (nds & g & cs & s & HN & EL & LM & ES & HO & HI).
  eexists _, s. split; [exact LM|].
  pose proof (OnnxModelNet.model_supported m input output SixLoops inputs env WF RU AN EX nds HN g cs EL eq_refl RO) as SP.
  eapply generated_weaken; [|apply C76_pipeline_partial; [exact KerasOps.zero_product_R|exact Rmult_comm|exact SP|exact ES]].
  intros x z (val & V & ->) ->. 
  rewrite (OnnxModelNet.output_value m input output SixLoops inputs env WF RU AN EX nds HN g cs EL ninf q s val HO HI V). unfold OnnxModelOps.data. rewrite EO. reflexivity.
Qed.
Print Assumptions C76_onnx_partial.
Theorem C76_keras_partial : forall (ninf : R) (q : Q -> R) (m : KerasSpec.kmodel) (sh : string -> list Z),
  KerasSpec.well_formed m -> KerasModel.shaped m sh -> KerasModel.positive_dims (KerasSpec.k_shape m) -> KerasModel.all_importable m sh ->
  (KerasSpec.k_sequential m = false -> KerasModel.softmax_last_only (KerasSpec.k_nodes m)) ->
  (forall n, In n (KerasSpec.k_nodes m) -> KerasOps.generable (KerasSpec.n_op n) (map sh (KerasSpec.n_inputs n)) /\ NoDup (KerasSpec.n_inputs n)) ->
  (forall n n' fmt nm, In n (KerasSpec.k_nodes m) -> KerasSpec.n_op n = KerasSpec.Flatten fmt -> In nm (KerasSpec.n_inputs n) ->
     In n' (KerasSpec.k_nodes m) -> In nm (KerasSpec.n_inputs n') -> n' = n) ->
  exists md s, Keras.load_model SixLoops m = Some md /\ tri_topo (md_graph Rnum md) = Some s /\
    generated_returns Rnum ninf q md s (fun x z => zlen x = KerasSpec.size_of (KerasSpec.k_shape m) -> forall env, KerasSpec.runs m x env -> z = KerasSpec.vals (env (KerasSpec.k_output m))).
Proof.
  intros ninf q m sh WF SH PI IM SM GN FL. destruct (KerasRun.load_ok m sh WF SH PI IM SM SixLoops) as (md & EL & ID).
  destruct (KerasRun.scheduled m sh WF SixLoops md ID) as (s & ES & H0 & HL & _). exists md, s. split; [exact EL|]. split; [exact ES|].
  assert (SP : supported Rnum md 0).
  { eapply (KerasRun.keras_supported m sh WF SH PI IM SixLoops md ID ninf q); [reflexivity|intros n Hn; apply GN; exact Hn|intros n Hn; apply GN; exact Hn|exact FL]. }
  eapply generated_weaken; [|apply C76_pipeline_partial; [exact KerasOps.zero_product_R|exact Rmult_comm|exact SP|exact ES]].
  intros x z (val & V & ->) HX env RU.
  eapply (KerasRun.output_value m sh WF SH PI IM SixLoops md ID ninf q); eassumption.
Qed.
Print Assumptions C76_keras_partial.
Theorem C76_pytorch_partial : forall (ninf : R) (q : Q -> R) (m : TorchSpec.program) (sh : string -> list Z),
  TorchSpec.well_formed m -> TorchModel.shaped m sh -> TorchOps.positive_dims (TorchSpec.p_shape m) -> TorchModel.all_importable m sh ->
  TorchModel.exclusive m -> TorchModel.absorbable m -> TorchRun.output_ordered m sh ->
  (forall n, In n (TorchSpec.p_nodes m) -> TorchOps.generable (TorchSpec.n_op n) /\ NoDup (TorchSpec.n_inputs n)) ->
  exists md s, Torch.load_pytorch SixLoops m = Some (md, s) /\ tri_topo (md_graph Rnum md) = Some s /\
    generated_returns Rnum ninf q md s (fun x z => forall u env, zlen u = KerasSpec.size_of (TorchSpec.p_shape m) -> TorchSpec.runs m u env ->
      x = TorchSpec.in_memory m (TorchSpec.p_shape m) u ->
      z = TorchSpec.in_memory m (KerasSpec.dims (env (TorchSpec.p_output m))) (KerasSpec.vals (env (TorchSpec.p_output m)))).
Proof.
  intros ninf q m sh WF SH PI IM EX AB OO GN. destruct (PropertiesTorch.load_state SixLoops ninf q m sh WF SH PI IM EX AB) as (st & h & r & t & s & V & EL & ES & H0 & HL).
  eexists _, s. split; [exact EL|]. split; [exact ES|].
  pose proof (TorchRun.torch_supported m sh WF PI EX SixLoops ninf q st h r t V eq_refl (fun n Hn => proj1 (GN n Hn)) (fun n Hn => proj2 (GN n Hn))) as SP. cbv zeta in SP.
  eapply generated_weaken; [|apply C76_pipeline_partial; [exact KerasOps.zero_product_R|exact Rmult_comm|exact SP|exact ES]].
  intros x z (val & EV & ->) u env HX RU ->.
  eapply (TorchRun.output_value m sh WF SH PI IM EX SixLoops ninf q st h r t V); eassumption.
Qed.
Print Assumptions C76_pytorch_partial.

(** ** Examples: the network of C36_example (layers 1 to 3 become one
    convolution, its other convolution is asked for by its new number 2).  An ONNX
    model meeting the hypotheses: PropertiesPipelineOnnx.v. *)
Definition ex76_versions : requests := fun k => match k with ById 2 => Some (Some "indirect_gemm_nn") | ByName "Conv2D" => Some (Some "std_gemm_nn") | _ => None end.
Definition convolutions_of (N : num) (st : pnet N) : list (option (nat * conv_impl * conv_params)) :=
  map (fun o => match kind_of N st o with KConv _ v c _ _ => Some (pn_idx N st o, v, c) | _ => None end) (pn_layers N st).
Definition ex76_convs (v1 v2 : conv_impl) := [None; Some (1%nat, v1, ex_conv1); Some (2%nat, v2, ex_conv2); None; None].
Lemma ex76_of N (st : pnet N) : pn_layers N st = [0; 1; 4; 5; 7]%nat -> convolutions_of N st = ex76_convs SixLoops StdGemmNN ->
  usable_after N ex76_versions st /\ exists st', versioned N ex76_versions st = Some st' /\ convolutions_of N st' = ex76_convs StdGemmNN IndirectGemmNN.
Proof.
  intros S2 S1. unfold convolutions_of in S1. rewrite S2 in S1. cbn [map] in S1. injection S1 as K0 K1 K2 K3 K4.
  destruct (kind_of N st 1) eqn:E1 in K1; try discriminate K1.
  destruct (kind_of N st 4) eqn:E4 in K2; try discriminate K2.
  injection K1 as I1 V1 C1. injection K2 as I2 V2 C2. subst.
  assert (U : usable_after N ex76_versions st).
  { intros o impl c' w' b' Hn E. rewrite S2 in Hn. destruct Hn as [<-|[<-|[<-|[<-|[<-|[]]]]]].
    - rewrite E in K0; discriminate.
    - rewrite E1 in E. injection E as <- <- <- <-. rewrite I1. exists StdGemmNN. split; reflexivity.
    - rewrite E4 in E. injection E as <- <- <- <-. rewrite I2. exists IndirectGemmNN. split; [reflexivity|]. split; [reflexivity|]. split; [unfold usual_sizes; cbn; repeat split; lia|].
      right. cbn. lia.
    - rewrite E in K3; discriminate.
    - rewrite E in K4; discriminate. }
  split; [exact U|]. destruct (usable_versioned N _ st U) as (ch & E & _). unfold versioned in E |- *.
  destruct (forallb _ _); [|discriminate]. eexists. split; [reflexivity|]. clear E. unfold convolutions_of, reimplemented, kind_of in *. cbn [pn_layers pn_layer pn_idx].
  rewrite S2. cbn [map]. unfold ex76_convs. rewrite I1, I2.
  assert (NC : forall o v, match lkind N (pn_layer N st o) with KConv _ _ _ _ _ => False | _ => True end ->
    match lkind N (implemented_by N v (pn_layer N st o)) with KConv _ v0 c _ _ => Some (pn_idx N st o, v0, c) | _ => None end = None).
  { intros o v H. unfold implemented_by. destruct (lkind N (pn_layer N st o)) eqn:EK; try destruct H; rewrite ?EK; reflexivity. }
  rewrite (NC 0%nat), (NC 5%nat), (NC 7%nat).
  - unfold implemented_by. rewrite E1, E4. reflexivity.
  - revert K4. destruct (lkind N (pn_layer N st 7)); try discriminate; auto.
  - revert K3. destruct (lkind N (pn_layer N st 5)); try discriminate; auto.
  - revert K0. destruct (lkind N (pn_layer N st 0)); try discriminate; auto.
Qed.
Example C76_example :
  let md := PropertiesPattern.fx_model in let s := PropertiesPattern.fx_schedule in
  zero_product_law NumInst.Qcnum /\ mul_comm_law NumInst.Qcnum /\ supported NumInst.Qcnum md 0 /\ tri_topo (md_graph NumInst.Qcnum md) = Some s /\
  StronglySorted lt (order s) /\ fusion_safe NumInst.Qcnum md 0 /\ python_safe NumInst.Qcnum md /\
  exists st st', optimise NumInst.Qcnum (initial NumInst.Qcnum md s) = Done NumInst.Qcnum st /\ usable_after NumInst.Qcnum ex76_versions st /\
    versioned NumInst.Qcnum ex76_versions st = Some st' /\ convolutions_of NumInst.Qcnum st' = ex76_convs StdGemmNN IndirectGemmNN.
Proof.
  intros md s. destruct PropertiesPattern.C36_example_supported as (SP & PS & FS & ES & SO).
  split; [exact PropertiesPattern.Qcnum_zero|]. split; [exact PropertiesPattern.Qcnum_comm|]. split; [exact SP|]. split; [exact ES|]. split; [exact SO|]. split; [exact FS|]. split; [exact PS|].
  assert (X : match optimise NumInst.Qcnum (initial NumInst.Qcnum md s) with Done _ st => pn_layers _ st = [0; 1; 4; 5; 7]%nat /\ convolutions_of _ st = ex76_convs SixLoops StdGemmNN | _ => False end).
  { vm_compute. split; reflexivity. }
  destruct (optimise NumInst.Qcnum (initial NumInst.Qcnum md s)) as [st| |]; [|destruct X|destruct X].
  destruct X as (X1 & X2). destruct (ex76_of _ st X1 X2) as (U & st' & V & C). exists st, st'. auto.
Qed.
